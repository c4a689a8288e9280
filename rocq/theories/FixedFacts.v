(** * FixedFacts: splitting and joining words *)
From Verif Require Import Base Stream TypedBin Hex Keys AbiScalar ToKey ToKeyFacts FixedBytes.

(** The bytes of a word, highest first, and of a sequence of words. *)
Definition be (w : nat) (x : Z) : bytes := rev (le_bytes w x).
Definition flat (w : nat) (l : list Z) : bytes := flat_map (be w) l.
Definition zeros (n : nat) : list Z := List.repeat 0 n.
Definition word (w : nat) (x : Z) : Prop := 0 <= x < 2 ^ (8 * Z.of_nat w).

Lemma be_len w x : List.length (be w x) = w.
Proof. unfold be. now rewrite rev_length, le_bytes_length. Qed.
Lemma be_ok w x : bytes_ok (be w x).
Proof. unfold be, bytes_ok. apply Forall_rev, le_bytes_ok. Qed.
Lemma flat_len w l : List.length (flat w l) = (List.length l * w)%nat.
Proof. induction l as [|x l IH]; [reflexivity|]. cbn [flat flat_map List.length]. rewrite app_length, be_len. unfold flat in IH. rewrite IH. reflexivity. Qed.
Lemma flat_app w a b : flat w (a ++ b) = flat w a ++ flat w b.
Proof. unfold flat. apply flat_map_app. Qed.
Lemma flat_cons w x l : flat w (x :: l) = be w x ++ flat w l. Proof. reflexivity. Qed.
Lemma flat_bytes l : bytes_ok l -> flat 1 l = l.
Proof.
  intros H. induction H as [|x l Hx H IH]; [reflexivity|]. rewrite flat_cons, IH. unfold be. cbn [le_bytes rev app]. f_equal. apply Z.mod_small. exact Hx.
Qed.
Lemma be_zero w : be w 0 = zeros w.
Proof.
  unfold be, zeros. assert (H : le_bytes w 0 = List.repeat 0 w). { induction w as [|w IH]; [reflexivity|]. cbn [le_bytes List.repeat]. rewrite Z.div_0_l, IH by lia. reflexivity. }
  rewrite H. clear. induction w as [|w IH]; [reflexivity|]. cbn [List.repeat rev]. rewrite IH. clear. induction w as [|w IH]; [reflexivity|]. cbn [List.repeat app]. now rewrite IH.
Qed.
Lemma zeros_app a b : zeros (a + b) = zeros a ++ zeros b.
Proof. apply repeat_app. Qed.
Lemma firstn_zeros a b : firstn a (zeros b) = zeros (Nat.min a b).
Proof. revert b. induction a as [|a IH]; intros b; [reflexivity|]. destruct b as [|b]; [reflexivity|]. cbn [Nat.min]. change (zeros (S b)) with (0 :: zeros b). change (zeros (S (Nat.min a b))) with (0 :: zeros (Nat.min a b)). cbn [firstn]. now rewrite IH. Qed.
Lemma flat_zeros w n : flat w (zeros n) = zeros (n * w).
Proof. induction n as [|n IH]; [reflexivity|]. change (zeros (S n)) with (0 :: zeros n). rewrite flat_cons, IH, be_zero. symmetry. apply zeros_app. Qed.
Lemma flat_firstn w n l : flat w (firstn n l) = firstn (n * w) (flat w l).
Proof.
  revert n. induction l as [|x l IH]; intros n. { rewrite firstn_nil. cbn [flat flat_map]. now rewrite firstn_nil. }
  destruct n as [|n]; [reflexivity|]. cbn [firstn]. rewrite !flat_cons, IH. cbn [Nat.mul]. rewrite firstn_app, be_len.
  replace (w + n * w - w)%nat with (n * w)%nat by lia. f_equal. rewrite firstn_all2; [reflexivity|rewrite be_len; lia].
Qed.
Lemma flat_ok w l : bytes_ok (flat w l).
Proof. induction l as [|x l IH]; [constructor|]. rewrite flat_cons. apply Forall_app. split; [apply be_ok|exact IH]. Qed.
Lemma le_bytes_app b a t : le_bytes (b + a) t = le_bytes b t ++ le_bytes a (t / 256 ^ Z.of_nat b).
Proof.
  revert t. induction b as [|b IH]; intros t. { cbn [Nat.add le_bytes app]. change (256 ^ Z.of_nat 0) with 1. now rewrite Z.div_1_r. }
  cbn [Nat.add le_bytes app]. rewrite IH. rewrite Z.div_div by lia. do 3 f_equal. rewrite Nat2Z.inj_succ, Z.pow_succ_r by lia. reflexivity.
Qed.
Lemma be_app a b t : be (a + b) t = be a (t / 256 ^ Z.of_nat b) ++ be b t.
Proof. unfold be. rewrite Nat.add_comm, le_bytes_app, rev_app_distr. reflexivity. Qed.
Lemma be_mod w x : be w (x mod 2 ^ (8 * Z.of_nat w)) = be w x.
Proof.
  unfold be. f_equal. rewrite <- pow256. revert x. induction w as [|w IH]; intros x; [reflexivity|]. cbn [le_bytes]. rewrite Nat2Z.inj_succ, Z.pow_succ_r by lia.
  assert (P : 0 < 256 ^ Z.of_nat w) by (apply Z.pow_pos_nonneg; lia).
  rewrite <- (IH (x / 256)). rewrite Z.rem_mul_r by lia. f_equal.
  - rewrite Z.mul_comm, Z.mod_add, Z.mod_mod by lia. reflexivity.
  - f_equal. rewrite Z.mul_comm, Z.div_add by lia. rewrite (Z.div_small (x mod 256)) by (apply Z.mod_pos_bound; lia). reflexivity.
Qed.
Lemma be_inj w x y : word w x -> word w y -> be w x = be w y -> x = y.
Proof.
  unfold word, be. rewrite <- pow256. intros Hx Hy H. apply (f_equal (@rev Z)) in H. rewrite !rev_involutive in H.
  rewrite <- (le_val_le_bytes w x Hx), <- (le_val_le_bytes w y Hy). now rewrite H.
Qed.
Lemma flat_inj w : (0 < w)%nat -> forall a b, Forall (word w) a -> Forall (word w) b -> flat w a = flat w b -> a = b.
Proof.
  intros W a. induction a as [|x a IH]; intros b Ha Hb H.
  - destruct b as [|y b]; [reflexivity|]. apply (f_equal (@List.length Z)) in H. rewrite !flat_len in H. cbn [List.length] in H. lia.
  - destruct b as [|y b]. { apply (f_equal (@List.length Z)) in H. rewrite !flat_len in H. cbn [List.length] in H. lia. }
    apply Forall_cons_iff in Ha as [Hx Ha]. apply Forall_cons_iff in Hb as [Hy Hb]. rewrite !flat_cons in H.
    assert (L : be w x = be w y /\ flat w a = flat w b).
    { pose proof (f_equal (firstn w) H) as F. pose proof (f_equal (skipn w) H) as G. rewrite !firstn_app, !be_len, !Nat.sub_diag in F. cbn [firstn] in F. rewrite !app_nil_r in F.
      rewrite !firstn_all2 in F by (rewrite be_len; lia). split; [exact F|]. rewrite !skipn_app, !be_len, !Nat.sub_diag in G. rewrite (skipn_all2 (be w x)), (skipn_all2 (be w y)) in G by (rewrite be_len; lia). exact G. }
    destruct L as [L1 L2]. f_equal; [eapply be_inj; eauto|now apply IH].
Qed.

(** Splitting a word. *)
Fixpoint split (u n : nat) (t : Z) : list Z :=
  match n with O => [] | S n' => (Z.shiftr t (digits u * Z.of_nat n') mod 2 ^ digits u) :: split u n' t end.
Lemma split_len u n t : List.length (split u n t) = n.
Proof. induction n as [|n IH]; [reflexivity|]. cbn [split List.length]. now rewrite IH. Qed.
Lemma write_split u words t n room : (n <= words)%nat -> write_be_from u words t n room = (firstn room (split u n t), (room - n)%nat).
Proof.
  revert room. induction n as [|n IH]; intros room H. { cbn [write_be_from split]. rewrite firstn_nil. f_equal. lia. }
  destruct room as [|room]; [reflexivity|]. cbn [write_be_from split firstn]. rewrite IH by lia. replace (words - (words - S n) - 1)%nat with n by lia. reflexivity.
Qed.
Lemma split_flat u n t : flat u (split u n t) = be (n * u) t.
Proof.
  induction n as [|n IH]; [reflexivity|]. cbn [split Nat.mul]. rewrite flat_cons, IH, be_app. f_equal. unfold digits. rewrite be_mod. f_equal.
  rewrite Z.shiftr_div_pow2 by lia. f_equal. rewrite pow256. f_equal. lia.
Qed.
Lemma split_words_ok t u l room : (u <> 0)%nat -> (t mod u = 0)%nat ->
  Forall (word u) (split_words t u l room) /\ split_words t u l room = firstn room (flat_map (split u (t / u)) l).
Proof.
  intros U M. revert room. induction l as [|x l IH]; intros room. { split; [constructor|now rewrite firstn_nil]. }
  cbn [split_words flat_map]. unfold write_be. rewrite write_split by lia. destruct (IH (room - t / u)%nat) as [A ->]. split.
  - apply Forall_app. split.
    + assert (G : Forall (word u) (split u (t / u) x)).
      { clear. induction (t / u)%nat as [|n IH]; constructor; [|exact IH]. unfold word, digits. apply Z.mod_pos_bound. apply Z.pow_pos_nonneg; lia. }
      rewrite <- (firstn_skipn room (split u (t / u) x)) in G. now apply Forall_app in G.
    + destruct (IH (room - t / u)%nat) as [B E]. rewrite <- E. exact B.
  - rewrite firstn_app, split_len. reflexivity.
Qed.

(** Joining words. *)
Fixpoint joined (u n : nat) (l : list Z) : Z :=
  match n, l with S n', x :: l' => x * 2 ^ (digits u * Z.of_nat n') + joined u n' l' | _, _ => 0 end.
Lemma joined_bound u n l : Forall (word u) l -> 0 <= joined u n l < 2 ^ (digits u * Z.of_nat n).
Proof.
  revert l. induction n as [|n IH]; intros l H. { destruct l; cbn [joined]; (split; [lia|apply Z.pow_pos_nonneg; unfold digits; lia]). }
  destruct l as [|x l]. { cbn [joined]. split; [lia|apply Z.pow_pos_nonneg; unfold digits; lia]. }
  apply Forall_cons_iff in H as [Hx H]. specialize (IH l H). cbn [joined].
  assert (Q : 2 ^ (digits u * Z.of_nat (S n)) = 2 ^ digits u * 2 ^ (digits u * Z.of_nat n)) by (rewrite <- Z.pow_add_r by (unfold digits; lia); f_equal; lia).
  unfold word in Hx. change (8 * Z.of_nat u) with (digits u) in Hx. rewrite Q. set (p := 2 ^ (digits u * Z.of_nat n)) in *. nia.
Qed.
Lemma read_joined u t words l n acc : Forall (word u) l -> (n <= words)%nat -> (t = words * u)%nat ->
  0 <= acc -> acc mod 2 ^ (digits u * Z.of_nat n) = 0 ->
  read_be_from u t words n l acc = (acc + joined u n l, skipn n l).
Proof.
  revert l acc. induction n as [|n IH]; intros l acc H N T A M. { cbn [read_be_from joined skipn]. destruct l; f_equal; lia. }
  destruct l as [|x l]. { cbn [read_be_from joined skipn]. f_equal. lia. }
  apply Forall_cons_iff in H as [Hx H]. cbn [read_be_from joined skipn]. replace (words - (words - S n) - 1)%nat with n by lia.
  assert (Q : 2 ^ (digits u * Z.of_nat (S n)) = 2 ^ digits u * 2 ^ (digits u * Z.of_nat n)) by (rewrite <- Z.pow_add_r by (unfold digits; lia); f_equal; lia).
  assert (P : 0 < 2 ^ (digits u * Z.of_nat n)) by (apply Z.pow_pos_nonneg; unfold digits; lia).
  assert (B : Z.shiftl x (digits u * Z.of_nat n) = x * 2 ^ (digits u * Z.of_nat n)) by (apply Z.shiftl_mul_pow2; unfold digits; lia).
  unfold word in Hx. change (8 * Z.of_nat u) with (digits u) in Hx.
  assert (C : x * 2 ^ (digits u * Z.of_nat n) < 2 ^ (digits u * Z.of_nat (S n))) by (rewrite Q; nia).
  assert (D : Z.shiftl x (digits u * Z.of_nat n) mod 2 ^ digits t = x * 2 ^ (digits u * Z.of_nat n)).
  { rewrite B. apply Z.mod_small. split; [nia|]. eapply Z.lt_le_trans; [exact C|]. apply Z.pow_le_mono_r; [lia|]. unfold digits. nia. }
  rewrite D.
  assert (K : exists q, acc = q * 2 ^ (digits u * Z.of_nat (S n))).
  { exists (acc / 2 ^ (digits u * Z.of_nat (S n))). pose proof (Z.div_mod acc (2 ^ (digits u * Z.of_nat (S n))) ltac:(rewrite Q; nia)). lia. }
  destruct K as [q K].
  assert (E : Z.lor acc (x * 2 ^ (digits u * Z.of_nat n)) = acc + x * 2 ^ (digits u * Z.of_nat n)).
  { rewrite Z.lor_comm. rewrite K. rewrite <- (Z.shiftl_mul_pow2 q) by (unfold digits; lia). rewrite lor_add_disjoint; [|unfold digits; lia|split; [nia|exact C]].
    rewrite (Z.shiftl_mul_pow2 q) by (unfold digits; lia). lia. }
  rewrite E, IH; [f_equal; lia|exact H|lia|exact T|nia|].
  rewrite Z.mod_add by lia. rewrite K, Q, Z.mul_assoc. apply Z.mod_mul. lia.
Qed.
Lemma joined_flat u n l : Forall (word u) l -> be (n * u) (joined u n l) = firstn (n * u) (flat u l ++ zeros (n * u)).
Proof.
  revert l. induction n as [|n IH]; intros l H; [reflexivity|].
  destruct l as [|x l]. { cbn [joined flat flat_map app]. rewrite be_zero, firstn_all2; [reflexivity|unfold zeros; now rewrite repeat_length]. }
  apply Forall_cons_iff in H as [Hx H]. cbn [joined Nat.mul]. rewrite be_app, flat_cons, <- app_assoc, firstn_app, be_len.
  replace (u + n * u - u)%nat with (n * u)%nat by lia. rewrite (firstn_all2 (n := u + n * u) (be u x)) by (rewrite be_len; lia).
  pose proof (joined_bound u n l H) as Bd. assert (Pw : 256 ^ Z.of_nat (n * u) = 2 ^ (digits u * Z.of_nat n)) by (rewrite pow256; f_equal; unfold digits; lia).
  assert (P : 0 < 2 ^ (digits u * Z.of_nat n)) by (apply Z.pow_pos_nonneg; unfold digits; lia). rewrite Pw. f_equal.
  - f_equal. rewrite Z.add_comm, Z.div_add by lia. rewrite Z.div_small by exact Bd. reflexivity.
  - rewrite <- be_mod. replace (2 ^ (8 * Z.of_nat (n * u))) with (2 ^ (digits u * Z.of_nat n)) by (f_equal; unfold digits; lia).
    rewrite Z.add_comm, Z.mod_add by lia. rewrite Z.mod_small by exact Bd. rewrite IH by exact H. rewrite !firstn_app. f_equal.
    replace (u + n * u)%nat with (n * u + u)%nat by lia. rewrite zeros_app, firstn_app.
    assert (Z0 : (n * u - List.length (flat u l) - List.length (zeros (n * u)) = 0)%nat) by (unfold zeros; rewrite repeat_length; lia).
    rewrite Z0. cbn [firstn]. now rewrite app_nil_r.
Qed.
Lemma skipn_flat u n l : flat u (skipn n l) = skipn (n * u) (flat u l).
Proof.
  revert l. induction n as [|n IH]; intros l; [reflexivity|]. destruct l as [|x l]. { cbn [skipn flat flat_map]. now rewrite skipn_nil. }
  cbn [skipn Nat.mul]. rewrite IH, flat_cons, skipn_app, be_len. rewrite (skipn_all2 (be u x)) by (rewrite be_len; lia). cbn [app]. f_equal. lia.
Qed.
Lemma join_words_ok t u k l : (t <> 0)%nat -> (u mod t = 0)%nat -> Forall (word t) l ->
  Forall (word u) (join_words t u k l) /\ flat u (join_words t u k l) = firstn (k * u) (flat t l ++ zeros (k * u)) /\ List.length (join_words t u k l) = k.
Proof.
  intros T M. assert (U : (u = u / t * t)%nat) by (pose proof (Nat.div_mod u t T); lia).
  revert l. induction k as [|k IH]; intros l H; [repeat split; constructor|].
  cbn [join_words]. unfold read_be. rewrite read_joined; [|exact H|lia|lia|lia|apply Z.mod_0_l; apply Z.pow_nonzero; unfold digits; lia].
  rewrite Z.add_0_l. destruct (IH (skipn (u / t) l)) as (A & B & C). { rewrite <- (firstn_skipn (u / t) l) in H. now apply Forall_app in H. }
  split; [|split].
  - constructor; [|exact A]. pose proof (joined_bound t (u / t) l H) as Bd. unfold word. replace (8 * Z.of_nat u) with (digits t * Z.of_nat (u / t)); [exact Bd|]. unfold digits. rewrite U at 2. lia.
  - rewrite flat_cons, B. rewrite U at 1. rewrite joined_flat by exact H. rewrite <- U, skipn_flat, <- U. cbn [Nat.mul].
    set (f := flat t l). clear. replace (u + k * u)%nat with (u + k * u)%nat by lia.
    rewrite <- (firstn_skipn u f) at 3. rewrite <- app_assoc. rewrite (firstn_app (u + k * u)). rewrite firstn_length.
    destruct (Nat.le_gt_cases (List.length f) u) as [L|L].
    + rewrite (skipn_all2 f) by exact L. cbn [app]. rewrite (firstn_all2 f) by exact L. rewrite (firstn_all2 (n := u + k * u) f) by lia.
      rewrite Nat.min_r by lia. rewrite firstn_app. rewrite (firstn_all2 f) by exact L. rewrite <- app_assoc. f_equal.
      rewrite !firstn_zeros, <- zeros_app. f_equal. lia.
    + rewrite Nat.min_l by lia. rewrite (firstn_all2 (n := u + k * u) (firstn u f)) by (rewrite firstn_length; lia). rewrite firstn_app. replace (u - List.length f)%nat with 0%nat by lia. cbn [firstn]. rewrite app_nil_r. f_equal.
      replace (u + k * u - u)%nat with (k * u)%nat by lia. rewrite !firstn_app. f_equal. rewrite !firstn_zeros. f_equal. lia.
  - cbn [List.length]. now rewrite C.
Qed.

(** The sizes of the unsigned integer types of C++: either divides the other. *)
Definition word_size (w : nat) : Prop := In w [1; 2; 4; 8; 16]%nat.
Lemma word_sizes t u : word_size t -> word_size u -> (t <> 0)%nat /\ (u <> 0)%nat /\ ((u < t)%nat -> (t mod u = 0)%nat) /\ ((t <= u)%nat -> (u mod t = 0)%nat).
Proof.
  unfold word_size. cbn [In]. intros Ht Hu. repeat destruct Ht as [<-|Ht]; try contradiction; repeat destruct Hu as [<-|Hu]; try contradiction; (split; [discriminate|split; [discriminate|split; intros; first [reflexivity|lia]]]).
Qed.
Lemma count_bound size t : (t <> 0)%nat -> (size <= count_words size t * t < size + t)%nat.
Proof. intros T. unfold count_words. pose proof (Nat.div_mod (size + t - 1) t T). pose proof (Nat.mod_upper_bound (size + t - 1) t T). nia. Qed.
Lemma count_div size t u : word_size t -> word_size u -> (u < t)%nat -> (count_words size u * u <= count_words size t * t)%nat.
Proof.
  intros T U L. destruct (word_sizes t u T U) as (T0 & U0 & D & _). specialize (D L). pose proof (count_bound size t T0) as Bt. pose proof (count_bound size u U0) as Bu.
  assert (Q : (t = t / u * u)%nat) by (pose proof (Nat.div_mod t u U0); lia). set (m := (t / u)%nat) in *.
  assert (count_words size u <= count_words size t * m)%nat; [|nia]. apply Nat.nlt_ge. intros X. assert (Y : (count_words size t * m * u + u <= count_words size u * u)%nat) by nia. nia.
Qed.
(** What convert_array does to the bytes. *)
Theorem convert_array_bytes size t u l : word_size t -> word_size u -> Forall (word t) l -> List.length l = count_words size t ->
  let r := convert_array size t u l in
  Forall (word u) r /\ List.length r = count_words size u /\ flat u r = firstn (count_words size u * u) (flat t l ++ zeros (count_words size u * u)).
Proof.
  intros T U H L r. destruct (word_sizes t u T U) as (T0 & U0 & D1 & D2). unfold r, convert_array. destruct (Nat.ltb_spec u t) as [X|X].
  - pose proof (count_div size t u T U X) as CD. destruct (split_words_ok t u l (count_words size u) U0 (D1 X)) as [A E].
    assert (Q : (t = t / u * u)%nat) by (pose proof (Nat.div_mod t u U0); specialize (D1 X); lia).
    assert (F : flat u (flat_map (split u (t / u)) l) = flat t l).
    { clear - Q. induction l as [|x l IH]; [reflexivity|]. cbn [flat_map]. rewrite flat_app, flat_cons, IH, split_flat, <- Q. reflexivity. }
    assert (Ln : List.length (flat_map (split u (t / u)) l) = (count_words size t * (t / u))%nat).
    { rewrite <- L. clear. induction l as [|x l IH]; [reflexivity|]. cbn [flat_map List.length]. rewrite app_length, IH, split_len. lia. }
    split; [exact A|]. rewrite E. split.
    + rewrite firstn_length, Ln. nia.
    + rewrite flat_firstn, F. rewrite firstn_app, flat_len, L. replace (count_words size u * u - count_words size t * t)%nat with 0%nat by lia. cbn [firstn]. now rewrite app_nil_r.
  - destruct (join_words_ok t u (count_words size u) l T0 (D2 X) H) as (A & B & C). auto.
Qed.
