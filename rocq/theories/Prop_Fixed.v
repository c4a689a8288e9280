(** * C38: fixed size byte arrays; C48: comparison of reflected structs *)
From Verif Require Import Base Stream TypedBin TypedSpec TypedBinFacts Hex Prop_Hex Keys AbiScalar AbiScalarFacts Json JsonSpec ToKey ToKeyFacts FixedBytes FixedFacts.

(** ** Specification
    A [fixed_bytes<size, Word>] stands for [size] bytes: the bytes of its words, highest byte
    first ([be], [flat] in FixedFacts.v), without the padding at the end. *)
Definition object (size w : nat) (v : list Z) : Prop := List.length v = num_words size w /\ Forall (word w) v.
Definition contents (size w : nat) (v : list Z) : bytes := firstn size (flat w v).
(** The bytes of the last word which are not part of the contents are zero. *)
Definition zero_padded (size w : nat) (v : list Z) : Prop := flat w v = contents size w v ++ zeros (padded_bytes size w).

Lemma words_bytes l : bytes_ok l -> Forall (word 1) l.
Proof. intros H. eapply Forall_impl; [|exact H]. intros x Hx. exact Hx. Qed.
Lemma ws1 : word_size 1. Proof. left. reflexivity. Qed.
Lemma count1 size : count_words size 1 = size.
Proof. unfold count_words. rewrite Nat.div_1_r. lia. Qed.
Lemma flat_object_len size w v : object size w v -> List.length (flat w v) = (num_words size w * w)%nat.
Proof. intros [L _]. now rewrite flat_len, L. Qed.
Lemma contents_len size w v : word_size w -> object size w v -> List.length (contents size w v) = size.
Proof. intros W O. unfold contents. rewrite firstn_length, (flat_object_len _ _ _ O). destruct (word_sizes w w W W) as [W0 _]. pose proof (count_bound size w W0). unfold num_words. lia. Qed.
Lemma contents_ok size w v : bytes_ok (contents size w v).
Proof. unfold contents. pose proof (flat_ok w v) as H. rewrite <- (firstn_skipn size (flat w v)) in H. now apply Forall_app in H. Qed.

(** Extracting gives the contents, in words of any unsigned type. *)
Theorem C38_extract size w v : word_size w -> object size w v ->
  extract_as_byte_array size w v = contents size w v /\
  forall t, word_size t -> let r := extract_as_word_array size w t v in
    List.length r = num_words size t /\ Forall (word t) r /\
    flat t r = firstn (num_words size t * t) (flat w v ++ zeros (num_words size t * t)).
Proof.
  intros W O. pose proof O as [L H]. split.
  - unfold extract_as_byte_array, extract_as_word_array. destruct (convert_array_bytes size w 1 v W ws1 H L) as (A & B & C).
    rewrite count1, Nat.mul_1_r in C. rewrite flat_bytes in C; [|eapply Forall_impl; [|exact A]; intros x Hx; exact Hx].
    rewrite C. unfold contents. rewrite firstn_app. pose proof (flat_object_len _ _ _ O) as F. destruct (word_sizes w w W W) as [W0 _]. pose proof (count_bound size w W0). unfold num_words in F.
    replace (size - List.length (flat w v))%nat with 0%nat by lia. cbn [firstn]. now rewrite app_nil_r.
  - intros t T. destruct (convert_array_bytes size w t v W T H L) as (A & B & C). auto.
Qed.
Print Assumptions C38_extract.
(** Constructing from words of any unsigned type - at most as many as fit - gives an object with
    the bytes of these words, followed by zeros. *)
Theorem C38_construct size w t l : word_size w -> word_size t -> Forall (word t) l -> (List.length l <= num_words size t)%nat ->
  let v := fixed_bytes size w t l in
  object size w v /\ flat w v = firstn (num_words size w * w) (flat t l ++ zeros (num_words size w * w)) /\
  contents size w v = firstn size (flat t l ++ zeros size).
Proof.
  intros W T H N v. unfold v, fixed_bytes, convert_range. fold (num_words size t). rewrite Nat.min_l by exact N. rewrite firstn_all. fold (zeros (num_words size t - List.length l)).
  destruct (convert_array_bytes size t w (l ++ zeros (num_words size t - List.length l)) T W) as (A & B & C).
  { apply Forall_app. split; [exact H|]. apply Forall_forall. intros x Hx. apply repeat_spec in Hx. subst. split; [lia|apply Z.pow_pos_nonneg; lia]. }
  { rewrite app_length. unfold zeros. rewrite repeat_length. unfold num_words in *. lia. }
  destruct (word_sizes w t W T) as (W0 & T0 & _).
  assert (G : forall n, (n <= num_words size w * w)%nat -> firstn n (flat t l ++ zeros n) = firstn n ((flat t l ++ zeros ((num_words size t - List.length l) * t)) ++ zeros (num_words size w * w))).
  { intros n Hn. rewrite <- app_assoc, <- zeros_app, !firstn_app, !firstn_zeros. do 2 f_equal. lia. }
  assert (F : flat w (convert_array size t w (l ++ zeros (num_words size t - List.length l))) = firstn (num_words size w * w) (flat t l ++ zeros (num_words size w * w))).
  { rewrite C, flat_app, flat_zeros. fold (num_words size w). symmetry. now apply G. }
  split; [split; [exact B|exact A]|]. split; [exact F|]. unfold contents. rewrite F, firstn_firstn. pose proof (count_bound size w W0) as Bd. fold (num_words size w) in Bd. rewrite Nat.min_l by lia.
  rewrite !firstn_app, !firstn_zeros. do 2 f_equal. lia.
Qed.
Print Assumptions C38_construct.
(** Bytes to words and back: the identity, filled up with zeros. *)
Theorem C38_bytes_roundtrip size w b : word_size w -> bytes_ok b -> (List.length b <= size)%nat ->
  extract_as_byte_array size w (fixed_bytes size w 1 b) = b ++ zeros (size - List.length b) /\
  zero_padded size w (fixed_bytes size w 1 b).
Proof.
  intros W H L. destruct (C38_construct size w 1 b W ws1 (words_bytes b H)) as (O & F & C). { unfold num_words. now rewrite count1. }
  rewrite flat_bytes in F, C by exact H. destruct (C38_extract size w _ W O) as [E _]. rewrite E. split.
  - rewrite C, firstn_app, firstn_zeros. rewrite firstn_all2 by exact L. do 2 f_equal. lia.
  - unfold zero_padded. rewrite F, C. destruct (word_sizes w w W W) as [W0 _]. pose proof (count_bound size w W0) as Bd. fold (num_words size w) in Bd. unfold padded_bytes.
    rewrite !firstn_app, !firstn_zeros. rewrite !firstn_all2 by lia. rewrite <- app_assoc, <- zeros_app. do 2 f_equal. lia.
Qed.
Print Assumptions C38_bytes_roundtrip.
Lemma no_padding size t : (t <> 0)%nat -> (size mod t = 0)%nat -> (num_words size t * t = size)%nat.
Proof.
  intros T0 D. unfold num_words, count_words in *. pose proof (Nat.div_mod size t T0) as Q. rewrite D in Q. assert (X : (size / t <= (size + t - 1) / t)%nat) by (apply Nat.div_le_mono; lia).
  assert ((size + t - 1) / t < size / t + 1)%nat; [apply Nat.div_lt_upper_bound; lia|]. nia.
Qed.
(** Words of any unsigned type whose size divides [size], and back. *)
Theorem C38_words_roundtrip size w t l : word_size w -> word_size t -> (size mod t = 0)%nat -> Forall (word t) l -> (List.length l <= num_words size t)%nat ->
  extract_as_word_array size w t (fixed_bytes size w t l) = l ++ zeros (num_words size t - List.length l).
Proof.
  intros W T D H N. destruct (C38_construct size w t l W T H N) as (O & F & _). destruct (C38_extract size w _ W O) as [_ E]. destruct (E t T) as (E1 & E2 & E3).
  destruct (word_sizes w t W T) as (W0 & T0 & _). pose proof (count_bound size w W0) as Bw. pose proof (count_bound size t T0) as Bt. fold (num_words size w) in Bw. fold (num_words size t) in Bt.
  pose proof (no_padding size t T0 D) as S.
  apply (flat_inj t ltac:(lia)); [exact E2| |].
  - apply Forall_app. split; [exact H|]. apply Forall_forall. intros x Hx. apply repeat_spec in Hx. subst. split; [lia|apply Z.pow_pos_nonneg; lia].
  - rewrite E3, F, flat_app, flat_zeros. rewrite !firstn_app, !firstn_firstn, !firstn_zeros. rewrite firstn_length.
    pose proof (flat_len t l) as Fl. rewrite (firstn_all2 (n := Nat.min (num_words size t * t) (num_words size w * w))) by (rewrite Fl; nia).
    rewrite <- app_assoc, <- zeros_app. do 2 f_equal. rewrite app_length, firstn_length. unfold zeros. rewrite repeat_length. rewrite Fl. nia.
Qed.
Print Assumptions C38_words_roundtrip.
(** An object with zero padding is determined by its bytes; without padding (as for the three
    checksum types) every object is. *)
Theorem C38_same_bytes size w a b : word_size w -> object size w a -> object size w b ->
  zero_padded size w a /\ zero_padded size w b \/ (size mod w = 0)%nat ->
  (extract_as_byte_array size w a = extract_as_byte_array size w b <-> a = b).
Proof.
  intros W Oa Ob P. split; [|now intros ->]. rewrite (proj1 (C38_extract size w a W Oa)), (proj1 (C38_extract size w b W Ob)). intros E.
  destruct (word_sizes w w W W) as [W0 _]. apply (flat_inj w ltac:(lia)); [apply Oa|apply Ob|].
  destruct P as [[-> ->]|D]; [now rewrite E|]. unfold contents in E.
  pose proof (no_padding size w W0 D) as S.
  pose proof (flat_object_len _ _ _ Oa). pose proof (flat_object_len _ _ _ Ob). rewrite !firstn_all2 in E by lia. exact E.
Qed.
Print Assumptions C38_same_bytes.
Example C38_checksums_have_no_padding : padded_bytes 20 4 = 0%nat /\ padded_bytes 32 8 = 0%nat /\ padded_bytes 64 8 = 0%nat /\
  (20 mod 4 = 0 /\ 32 mod 8 = 0 /\ 64 mod 8 = 0)%nat /\ padded_bytes 5 8 = 3%nat.
Proof. repeat split. Qed.

(** The operators == and < are those of the byte sequences. *)
Lemma array_eq_spec a b : array_eq a b = true <-> a = b.
Proof.
  revert b. induction a as [|x a IH]; intros [|y b]; cbn [array_eq]; try (split; congruence). rewrite andb_true_iff, Z.eqb_eq, IH. split; [intros [-> ->]; reflexivity|intros [= -> ->]; auto].
Qed.
Lemma array_lt_flat w : (0 < w)%nat -> forall a b, Forall (word w) a -> Forall (word w) b -> List.length a = List.length b ->
  forall c, ordk (flat w a) (flat w b) c -> array_lt a b = match c with Lt => true | _ => false end.
Proof.
  intros W a. induction a as [|x a IH]; intros [|y b] Ha Hb L c O; cbn [List.length] in L; try discriminate.
  - cbn [array_lt]. destruct c; cbn [ordk] in O; [reflexivity| |]; specialize (O [] []); discriminate.
  - apply Forall_cons_iff in Ha as [Hx Ha]. apply Forall_cons_iff in Hb as [Hy Hb]. rewrite !flat_cons in O. cbn [array_lt].
    pose proof (ordk_be w x y) as B. rewrite !pow256 in B. specialize (B Hx Hy). change (rev (le_bytes w x)) with (be w x) in B. change (rev (le_bytes w y)) with (be w y) in B.
    destruct (Z.compare_spec x y) as [Exy|Exy|Exy]; cbn [ordk] in B.
    + subst y. rewrite Z.ltb_irrefl. apply (IH b Ha Hb ltac:(lia)). destruct c; cbn [ordk] in O |- *.
      * now apply app_inv_head in O.
      * intros p q. specialize (O p q). rewrite <- !app_assoc, lexcmp_same in O. exact O.
      * intros p q. specialize (O p q). rewrite <- !app_assoc, lexcmp_same in O. exact O.
    + assert (x <? y = true) as -> by lia. destruct c; cbn [ordk] in O; [|reflexivity|].
      * specialize (B (flat w a) (flat w b)). rewrite O, lexcmp_refl in B. discriminate.
      * specialize (B (flat w a) (flat w b)). specialize (O [] []). rewrite !app_nil_r in O. congruence.
    + assert (x <? y = false) as -> by lia. assert (y <? x = true) as -> by lia. destruct c; cbn [ordk] in O; [reflexivity| |reflexivity].
      specialize (B (flat w a) (flat w b)). specialize (O [] []). rewrite !app_nil_r in O. congruence.
Qed.
Lemma lexcmp_eq a b : lexcmp a b = Eq -> a = b.
Proof.
  revert b. induction a as [|x a IH]; intros [|y b] H; try discriminate; [reflexivity|]. cbn [lexcmp] in H. destruct (Z.compare_spec x y) as [E|E|E]; try discriminate. subst. f_equal. auto.
Qed.
Lemma ordk_same_len a b : List.length a = List.length b -> ordk a b (lexcmp a b).
Proof.
  revert b. induction a as [|x a IH]; intros [|y b] L; try discriminate; [reflexivity|]. cbn [lexcmp]. pose proof (ordk_byte x y) as B.
  assert (IHb : ordk a b (lexcmp a b)) by (apply IH; now injection L).
  change (x :: a) with ([x] ++ a). change (y :: b) with ([y] ++ b).
  replace (match x ?= y with Eq => lexcmp a b | c => c end) with (lexc (x ?= y) (lexcmp a b)) by (destruct (x ?= y); reflexivity). apply ordk_app; [exact B|auto].
Qed.
Lemma ordk_padding a b z c : ordk a b c -> ordk (a ++ z) (b ++ z) c.
Proof. intros O. destruct c; cbn [ordk] in *; [now subst| |]; intros x y; rewrite <- !app_assoc; apply O. Qed.
Theorem C38_order size w a b : word_size w -> object size w a -> object size w b ->
  zero_padded size w a /\ zero_padded size w b \/ (size mod w = 0)%nat ->
  (fixed_eq a b = true <-> extract_as_byte_array size w a = extract_as_byte_array size w b) /\
  (fixed_lt a b = true <-> lexcmp (extract_as_byte_array size w a) (extract_as_byte_array size w b) = Lt).
Proof.
  intros W Oa Ob P. destruct (word_sizes w w W W) as [W0 _]. split.
  - rewrite (C38_same_bytes size w a b W Oa Ob P). unfold fixed_eq, struct_eq. cbn [struct_eq_from member_eq array_ops andb]. apply array_eq_spec.
  - rewrite (proj1 (C38_extract size w a W Oa)), (proj1 (C38_extract size w b W Ob)).
    pose proof (contents_len size w a W Oa) as La. pose proof (contents_len size w b W Ob) as Lb.
    pose proof (ordk_same_len (contents size w a) (contents size w b) ltac:(lia)) as O.
    assert (O' : ordk (flat w a) (flat w b) (lexcmp (contents size w a) (contents size w b))).
    { destruct P as [[Pa Pb]|D]; [rewrite Pa, Pb; now apply ordk_padding|].
      pose proof (no_padding size w W0 D) as S.
      pose proof (flat_object_len _ _ _ Oa). pose proof (flat_object_len _ _ _ Ob). unfold contents in *. rewrite !firstn_all2 in * by lia. exact O. }
    destruct Oa as [Na Ha], Ob as [Nb Hb].
    assert (Lt1 : array_lt a b = match lexcmp (contents size w a) (contents size w b) with Lt => true | _ => false end) by (apply (array_lt_flat w); auto; lia).
    unfold fixed_lt, struct_lt, struct_compare. cbn [struct_compare_from]. change (0 =? 0) with true. cbn iota. unfold member_compare. cbn [member_lt array_ops].
    rewrite Lt1. destruct (lexcmp (contents size w a) (contents size w b)); destruct (array_lt b a); split; intros X; try reflexivity; try discriminate X.
Qed.
Print Assumptions C38_order.
(** Finding: with padding, two objects with the same bytes can be different. *)
Theorem C38_padding_refuted : let a := fixed_bytes 5 8 4 [1; 255] in let b := fixed_bytes 5 8 4 [1; 254] in
  object 5 8 a /\ object 5 8 b /\ extract_as_byte_array 5 8 a = [0; 0; 0; 1; 0] /\ extract_as_byte_array 5 8 b = [0; 0; 0; 1; 0] /\
  fixed_eq a b = false /\ fixed_lt b a = true.
Proof. cbv zeta. repeat split; try reflexivity; repeat constructor; vm_compute; congruence. Qed.
Print Assumptions C38_padding_refuted.

(** Binary: the bytes, in every kind of stream. *)
Lemma bytes_enc d : bytes_ok d -> enc key_env 0 (byte_array (List.length d)) (VList (map VInt d)) = Ok d.
Proof.
  intros H. destruct (rt_bin key_env 0 (byte_array (List.length d)) (VList (map VInt d)) (fixed_ok_conv _ d H eq_refl)) as (b & E & _). rewrite E. f_equal.
  unfold byte_array in E. rewrite enc_unfold in E. cbn [enc_with] in E. clear - E H. revert b E. induction H as [|x d Hx H IH]; intros b E.
  - cbn in E. congruence.
  - cbn [map] in E. cbn [enc_seq] in E. unfold eapp in E. apply bind_Ok in E as (p & E1 & E). apply bind_Ok in E as (q & E2 & E). injection E as <-. apply IH in E2 as ->.
    cbn [enc_with] in E1. injection E1 as <-. cbn [le_bytes app]. f_equal. apply Z.mod_small. exact Hx.
Qed.
(** to_bin (and to_key) write exactly the [size] bytes; from_bin reads them from the front of any
    input and fails exactly if there are fewer than [size]. *)
Theorem C38_binary size w : word_size w ->
  (forall v d, object size w v -> fixed_to_bin vector_stream size w v d = Ok (d ++ contents size w v)) /\
  (forall v d, object size w v -> fixed_to_bin size_stream size w v d = Ok (d + size)%nat) /\
  (forall b rest, bytes_ok (b ++ rest) -> List.length b = size ->
     exists v, fixed_from_bin size w (b ++ rest) = Ok (v, rest) /\ object size w v /\ contents size w v = b) /\
  (forall s, (List.length s < size)%nat -> fixed_from_bin size w s = Err E_overrun) /\
  (forall v rest, object size w v -> bytes_ok rest -> zero_padded size w v \/ (size mod w = 0)%nat ->
     fixed_from_bin size w (contents size w v ++ rest) = Ok (v, rest)).
Proof.
  intros W.
  assert (TB : forall v, object size w v -> enc key_env 0 (byte_array size) (VList (map VInt (extract_as_byte_array size w v))) = Ok (contents size w v)).
  { intros v O. rewrite (proj1 (C38_extract size w v W O)). rewrite <- (contents_len size w v W O) at 1. apply bytes_enc, contents_ok. }
  assert (FB : forall b rest, bytes_ok (b ++ rest) -> List.length b = size -> fixed_from_bin size w (b ++ rest) = Ok (fixed_bytes size w 1 b, rest)).
  { intros b rest H L. apply Forall_app in H as [Hb Hr]. unfold fixed_from_bin.
    destruct (rt_bin key_env 0 (byte_array size) (VList (map VInt b)) (fixed_ok_conv _ b Hb L)) as (e & E & _ & D). rewrite <- L in E. rewrite bytes_enc in E by exact Hb. injection E as <-.
    rewrite D by exact Hr. cbn [bind]. rewrite map_map. cbn [byte_of]. now rewrite map_id. }
  split; [|split; [|split; [|split]]].
  - intros v d O. unfold fixed_to_bin. now rewrite to_bin_vector, TB.
  - intros v d O. unfold fixed_to_bin. rewrite to_bin_size, TB by exact O. cbn [bind]. now rewrite (contents_len size w v W O).
  - intros b rest H L. exists (fixed_bytes size w 1 b). split; [now apply FB|]. apply Forall_app in H as [Hb _].
    destruct (C38_construct size w 1 b W ws1 (words_bytes b Hb)) as (O & _ & C). { unfold num_words. rewrite count1. lia. } split; [exact O|].
    rewrite C, flat_bytes by exact Hb. rewrite firstn_app, L, Nat.sub_diag. cbn [firstn]. rewrite app_nil_r, firstn_all2 by lia. reflexivity.
  - intros s L. unfold fixed_from_bin.
    assert (R : forall n s, (List.length s < n)%nat -> read_list (fun s0 : istream => let* (b, s1) := sread s0 1 in Ok (VInt (le_val b), s1)) n s = Err E_overrun).
    { clear. induction n as [|n IH]; intros s L; [lia|]. cbn [read_list]. unfold sread at 1, check. destruct s as [|x s]; [reflexivity|].
      cbn [List.length] in *. assert (1 <=? Z.of_nat (S (List.length s)) = true) as -> by lia. cbn [bind firstn skipn]. change (Z.to_nat 1) with 1%nat. cbn [firstn skipn]. rewrite IH by lia. reflexivity. }
    change (from_bin key_env 0 (byte_array size) s) with (let* (l, s0) := read_list (fun s0 : istream => let* (b, s1) := sread s0 1 in Ok (VInt (le_val b), s1)) size s in Ok (VList l, s0)).
    rewrite R by exact L. reflexivity.
  - intros v rest O Hr P. assert (L := contents_len size w v W O). rewrite FB; [|apply Forall_app; split; [apply contents_ok|exact Hr]|exact L]. do 2 f_equal.
    destruct (C38_bytes_roundtrip size w (contents size w v) W (contents_ok _ _ _) ltac:(lia)) as [E Z0]. rewrite L, Nat.sub_diag in E. cbn [zeros List.repeat] in E. rewrite app_nil_r in E.
    destruct (C38_construct size w 1 (contents size w v) W ws1 (words_bytes _ (contents_ok _ _ _))) as (O' & _). { unfold num_words. rewrite count1. lia. }
    apply (C38_same_bytes size w _ _ W O' O). { destruct P as [P|P]; [left; split; [exact Z0|exact P]|now right]. }
    rewrite E, (proj1 (C38_extract size w v W O)). reflexivity.
Qed.
Print Assumptions C38_binary.
(** JSON: a string of [2 * size] hexadecimal digits; it is read back, and no other string is. *)
Theorem C38_json size w : word_size w ->
  (forall v, object size w v -> fixed_to_json size w v = str """" ++ hex (contents size w v) ++ str """" /\ List.length (hex (contents size w v)) = (2 * size)%nat) /\
  (forall s, match fixed_read_json size w s with
             | Ok v => List.length s = (2 * size)%nat /\ forallb is_hex_digit s = true /\ object size w v /\ zero_padded size w v /\ hex (contents size w v) = map upcase s
             | Err e => (List.length s <> 2 * size)%nat \/ forallb is_hex_digit s = false
             | Undef _ => False
             end) /\
  (forall v, object size w v -> zero_padded size w v \/ (size mod w = 0)%nat -> fixed_read_json size w (hex (contents size w v)) = Ok v).
Proof.
  intros W. split; [|split].
  - intros v O. unfold fixed_to_json, to_json_hex. rewrite (proj1 (C38_extract size w v W O)). split; [reflexivity|].
    destruct (C17_roundtrip _ (contents_ok size w v)) as (_ & _ & L & _). rewrite L, contents_len by auto. reflexivity.
  - intros s. unfold fixed_read_json. rewrite C17_from_json_hex. destruct (Nat.even (List.length s)) eqn:Ev; cbn [andb].
    + destruct (forallb is_hex_digit s) eqn:F; cbn [bind]; [|now right].
      assert (U : unhex s = Some (pairs_value s)) by (apply C17_unhex; auto). destruct (C17_hex_of_unhex _ _ U) as [Ok1 Hx].
      assert (Ln : List.length s = (2 * List.length (pairs_value s))%nat). { rewrite <- (map_length upcase s), <- Hx. now apply C17_roundtrip. }
      unfold check. destruct (Nat.eqb_spec (List.length (pairs_value s)) size) as [Q|Q]; cbn [bind]; [|left; lia].
      destruct (C38_construct size w 1 (pairs_value s) W ws1 (words_bytes _ Ok1)) as (O & _ & C). { unfold num_words. rewrite count1. lia. }
      split; [lia|]. split; [reflexivity|]. split; [exact O|]. split; [apply C38_bytes_roundtrip; auto; lia|].
      rewrite C, flat_bytes by exact Ok1. rewrite firstn_app, Q, Nat.sub_diag. cbn [firstn]. rewrite app_nil_r, firstn_all2 by lia. exact Hx.
    + cbn [bind]. left. intros X. rewrite X in Ev. rewrite Nat.even_mul in Ev. discriminate.
  - intros v O P. unfold fixed_read_json. destruct (C17_roundtrip _ (contents_ok size w v)) as (_ & -> & _). cbn [bind]. unfold check. rewrite (contents_len size w v W O), Nat.eqb_refl. cbn [bind]. f_equal.
    assert (L := contents_len size w v W O).
    destruct (C38_bytes_roundtrip size w (contents size w v) W (contents_ok _ _ _) ltac:(lia)) as [E Z0]. rewrite L, Nat.sub_diag in E. cbn [zeros List.repeat] in E. rewrite app_nil_r in E.
    destruct (C38_construct size w 1 (contents size w v) W ws1 (words_bytes _ (contents_ok _ _ _))) as (O' & _). { unfold num_words. rewrite count1. lia. }
    apply (C38_same_bytes size w _ _ W O' O). { destruct P as [P|P]; [left; split; [exact Z0|exact P]|now right]. }
    rewrite E, (proj1 (C38_extract size w v W O)). reflexivity.
Qed.
Print Assumptions C38_json.

Example C38_example : let v := fixed_bytes 5 4 1 [1; 2; 3; 4; 255] in
  v = [16909060; 4278190080] /\ object 5 4 v /\ zero_padded 5 4 v /\ extract_as_byte_array 5 4 v = [1; 2; 3; 4; 255] /\
  extract_as_word_array 5 4 8 v = [72623863984291840] /\ extract_as_word_array 5 4 2 v = [258; 772; 65280] /\
  fixed_to_json 5 4 v = str """01020304FF""" /\ fixed_from_bin 5 4 [1; 2; 3; 4; 255; 9] = Ok (v, [9]).
Proof.
  intros v. assert (V : v = [16909060; 4278190080]) by (vm_compute; reflexivity). split; [exact V|]. rewrite V. clear v V. split; [|repeat split; vm_compute; reflexivity].
  split; [reflexivity|]. constructor; [split; vm_compute; congruence|]. constructor; [split; vm_compute; congruence|]. constructor.
Qed.

(** ** C48 *)
(** Operators which are those of a total order [cmp]. *)
Definition total {A} (o : member_ops A) (cmp : A -> A -> comparison) : Prop :=
  forall x y, member_eq o x y = (match cmp x y with Eq => true | _ => false end) /\
              member_lt o x y = (match cmp x y with Lt => true | _ => false end) /\ cmp y x = CompOpp (cmp x y).
(** The lexicographic order of the members, in the order of their declaration. *)
Fixpoint by_members {A} (cmps : list (A -> A -> comparison)) (x y : list A) : comparison :=
  match cmps, x, y with
  | c :: cmps', a :: x', b :: y' => match c a b with Eq => by_members cmps' x' y' | r => r end
  | _, _, _ => Eq
  end.
Lemma struct_eq_false {A} (m : list (member_ops A)) x y : struct_eq_from m x y false = false.
Proof. revert x y. induction m as [|o m IH]; intros [|a x] [|b y]; try reflexivity. cbn [struct_eq_from]. apply IH. Qed.
Lemma struct_compare_done {A} (m : list (member_ops A)) x y r : r <> 0 -> struct_compare_from m x y r = r.
Proof. intros H. revert x y. induction m as [|o m IH]; intros [|a x] [|b y]; try reflexivity. cbn [struct_compare_from]. destruct (Z.eqb_spec r 0); [contradiction|apply IH]. Qed.
(** If the operators of every member are those of a total order, then those of the struct are
    those of the lexicographic order of the members, and eosio_compare is -1, 0 or 1. *)
Theorem C48_struct_operators {A} (m : list (member_ops A)) (cmps : list (A -> A -> comparison)) x y : Forall2 total m cmps ->
  List.length x = List.length m -> List.length y = List.length m ->
  let c := by_members cmps x y in
  struct_compare m x y = (match c with Lt => -1 | Eq => 0 | Gt => 1 end) /\
  struct_eq m x y = (match c with Eq => true | _ => false end) /\ struct_ne m x y = (match c with Eq => false | _ => true end) /\
  struct_lt m x y = (match c with Lt => true | _ => false end) /\ struct_gt m x y = (match c with Gt => true | _ => false end) /\
  struct_le m x y = (match c with Gt => false | _ => true end) /\ struct_ge m x y = (match c with Lt => false | _ => true end) /\
  by_members cmps y x = CompOpp c.
Proof.
  intros T Lx Ly c.
  assert (G : struct_compare m x y = (match c with Lt => -1 | Eq => 0 | Gt => 1 end) /\ struct_eq m x y = (match c with Eq => true | _ => false end) /\ by_members cmps y x = CompOpp c).
  { unfold c, struct_compare, struct_eq. clear c. revert x y Lx Ly. induction T as [|o cmp m cmps H T IH]; intros [|a x] [|b y] Lx Ly; cbn [List.length] in *; try discriminate; [repeat split|].
    injection Lx as Lx. injection Ly as Ly. specialize (IH x y Lx Ly). cbn [struct_compare_from struct_eq_from by_members]. change (0 =? 0) with true. cbn iota. cbn [andb].
    destruct (H a b) as (E & L & O). destruct (H b a) as (_ & L' & _). unfold member_compare. rewrite L', L, E, O. destruct (cmp a b); cbn [CompOpp].
    - exact IH.
    - rewrite struct_compare_done by lia. rewrite struct_eq_false. auto.
    - rewrite struct_compare_done by lia. rewrite struct_eq_false. auto. }
  destruct G as (C & E & O). unfold struct_ne, struct_lt, struct_gt, struct_le, struct_ge. rewrite C, E. split; [reflexivity|]. split; [reflexivity|].
  destruct c; repeat split; auto.
Qed.
Print Assumptions C48_struct_operators.
(** Integers are a total order; so are std::arrays of them of one length, and by the theorem
    structs of these. *)
Definition int_ops : member_ops Z := Ops Z.eqb Z.ltb.
Example C48_hypotheses : Forall2 total [int_ops; int_ops] [Z.compare; Z.compare] /\
  struct_lt [int_ops; int_ops] [1; 5] [1; 7] = true /\ struct_lt [int_ops; int_ops] [2; 5] [1; 7] = false /\ struct_eq [int_ops; int_ops] [1; 5] [1; 5] = true.
Proof.
  assert (T : total int_ops Z.compare).
  { intros x y. cbn [member_eq member_lt int_ops]. rewrite Z.eqb_compare, Z.ltb_compare. split; [reflexivity|]. split; [reflexivity|]. apply Z.compare_antisym. }
  split; [constructor; [exact T|constructor; [exact T|constructor]]|]. repeat split; reflexivity.
Qed.

(** include/eosio/symbol.hpp:265-299: extended_symbol (the values of its symbol and contract); EOSIO_COMPARE of symbol and
    name compares the values. *)
Definition extended_symbol_compare (x y : list Z) : Z := struct_compare [int_ops; int_ops] x y.
(** include/eosio/symbol.hpp:299 *)
Definition extended_symbol_eq (x y : list Z) : bool := struct_eq [int_ops; int_ops] x y.
(** include/eosio/symbol.hpp:299 *)
Definition extended_symbol_lt (x y : list Z) : bool := struct_lt [int_ops; int_ops] x y.
(** Extended symbols are equal when symbol and contract are; they sort by symbol and then by contract. *)
Theorem C48_extended_symbol : forall s c s' c',
  (extended_symbol_eq [s; c] [s'; c'] = true <-> s = s' /\ c = c') /\
  (extended_symbol_lt [s; c] [s'; c'] = true <-> s < s' \/ s = s' /\ c < c') /\
  (extended_symbol_compare [s; c] [s'; c'] = 0 <-> s = s' /\ c = c') /\ -1 <= extended_symbol_compare [s; c] [s'; c'] <= 1.
Proof.
  intros s c s' c'. destruct (C48_struct_operators [int_ops; int_ops] [Z.compare; Z.compare] [s; c] [s'; c'] (proj1 C48_hypotheses) eq_refl eq_refl) as (C & E & _ & L & _).
  unfold extended_symbol_eq, extended_symbol_lt, extended_symbol_compare. rewrite C, E, L. cbn [by_members].
  destruct (Z.compare_spec s s'); [destruct (Z.compare_spec c c')|..]; repeat split; intros; try lia; try congruence.
Qed.
Print Assumptions C48_extended_symbol.
