(** * C59: the hash of JSON strings which are not names *)
From Verif Require Import Base Name NameFacts MurmurSpec Prop_Name.

Lemma fold47_mix z : shift_mix z = fold47 z.
Proof. unfold shift_mix, fold47. now rewrite Z.shiftr_div_pow2 by lia. Qed.
Lemma times_mul z : u64 (z * murmur_mul) = times_m z.
Proof. reflexivity. Qed.

(** One byte of unaligned_load; the value read so far has the bytes 0 :: u. *)
Lemma load_low q c : 0 <= q < 2 ^ 56 -> 0 <= c < 128 -> u64 (Z.shiftl (Z.lor (256 * q) (u64 (to_signed 8 c))) 8) = 256 * (c + 256 * (q mod 2 ^ 48)).
Proof.
  intros Hq Hc. assert (E : u64 (to_signed 8 c) = c).
  { unfold u64, to_signed. destruct (Z.ltb_spec c (2 ^ (8 - 1))); [|lia]. apply Z.mod_small. lia. }
  rewrite E, (lor_high (256 * q) c 8) by lia. unfold u64. rewrite Z.shiftl_mul_pow2 by lia. lia.
Qed.
Lemma load_high q c : 0 <= q < 2 ^ 56 -> 128 <= c < 256 -> u64 (Z.shiftl (Z.lor (256 * q) (u64 (to_signed 8 c))) 8) = 256 * (c + 256 * (2 ^ 48 - 1)).
Proof.
  intros Hq Hc. assert (E : u64 (to_signed 8 c) = Z.lor (256 * Z.ones 56) c).
  { rewrite (lor_high (256 * Z.ones 56) c 8) by (try reflexivity; lia). unfold u64, to_signed. destruct (Z.ltb_spec c (2 ^ (8 - 1))); [lia|].
    replace (c - 2 ^ 8) with ((256 * Z.ones 56 + c) + (-1) * 2 ^ 64) by (change (Z.ones 56) with (2 ^ 56 - 1); lia).
    rewrite Z.mod_add by lia. apply Z.mod_small. change (Z.ones 56) with (2 ^ 56 - 1). lia. }
  rewrite E, Z.lor_assoc. replace (Z.lor (256 * q) (256 * Z.ones 56)) with (256 * Z.ones 56).
  - rewrite (lor_high (256 * Z.ones 56) c 8) by (try reflexivity; lia). change (Z.ones 56) with (2 ^ 56 - 1). unfold u64. rewrite Z.shiftl_mul_pow2 by lia. lia.
  - rewrite !(Z.mul_comm 256). change 256 with (2 ^ 8). rewrite <- !Z.shiftl_mul_pow2 by lia. rewrite <- Z.shiftl_lor. f_equal.
    destruct (Z.eq_dec q 0) as [->|N]; [reflexivity|]. symmetry. apply Z.lor_ones_low; [lia|]. apply Z.log2_lt_pow2; lia.
Qed.
Definition upper (c : Z) (u : bytes) : bytes := if c <? 128 then u else repeat 255 6.
Lemma load_step u x c : bytes_ok u -> List.length u = 6%nat -> is_byte x -> is_byte c ->
  u64 (Z.shiftl (Z.lor (256 * le_val (u ++ [x])) (u64 (to_signed 8 c))) 8) = 256 * le_val (c :: upper c u).
Proof.
  intros Hu Hl Hx Hc. unfold is_byte in *. pose proof (le_val_bound u Hu) as B. rewrite Hl in B. change (256 ^ Z.of_nat 6) with (2 ^ 48) in B.
  assert (A : le_val (u ++ [x]) = le_val u + 2 ^ 48 * x).
  { clear -Hl. do 6 (destruct u as [|? u]; [discriminate|]). destruct u; [|discriminate]. cbn [app le_val]. lia. }
  rewrite A. unfold upper. destruct (Z.ltb_spec c 128).
  - rewrite load_low by lia. cbn [le_val]. do 3 f_equal. rewrite Z.mul_comm, Z.mod_add by lia. apply Z.mod_small. lia.
  - rewrite load_high by lia. reflexivity.
Qed.

Lemma load_step' v c : bytes_ok v -> List.length v = 7%nat -> is_byte c ->
  u64 (Z.shiftl (Z.lor (256 * le_val v) (u64 (to_signed 8 c))) 8) = 256 * le_val (c :: upper c (firstn 6 v)) /\
  bytes_ok (c :: upper c (firstn 6 v)) /\ List.length (c :: upper c (firstn 6 v)) = 7%nat.
Proof.
  intros Hv Hl Hc. do 7 (destruct v as [|? v]; [discriminate|]). destruct v; [|discriminate]. cbn [firstn].
  unfold bytes_ok in *. repeat match goal with H : Forall _ (_ :: _) |- _ => inversion H; clear H; subst end. split; [|split].
  - match goal with |- context [le_val [?a; ?b; ?c; ?d; ?e; ?f; ?g]] => change [a; b; c; d; e; f; g] with ([a; b; c; d; e; f] ++ [g]) end.
    apply load_step; [unfold bytes_ok; auto 10|reflexivity|assumption|assumption].
  - constructor; [exact Hc|]. unfold upper. destruct (c <? 128); [auto 10|]. repeat constructor; unfold is_byte; lia.
  - unfold upper. now destruct (c <? 128).
Qed.
Lemma load_block a b c d e f g i : bytes_ok [a; b; c; d; e; f; g; i] ->
  unaligned_load [a; b; c; d; e; f; g; i] 8 0 = le_val (0 :: rev (covered [b; c; d; e; f; g; i])).
Proof.
  intros H. unfold bytes_ok in H. do 8 match goal with H : Forall _ (_ :: _) |- _ => inversion H; clear H; subst end.
  change 0 with (256 * le_val (repeat 0 7)) at 1. assert (Z0 : bytes_ok (repeat 0 7)) by (repeat constructor; unfold is_byte; lia).
  cbn [unaligned_load].
  assert (L0 : List.length (repeat 0 7) = 7%nat) by reflexivity. revert Z0 L0. generalize (repeat 0 7) as u0. intros u0 Z0 L0.
  destruct (load_step' u0 a) as (-> & B1 & L1); auto.
  destruct (load_step' _ b B1 L1) as (-> & B2 & L2); auto.
  destruct (load_step' _ c B2 L2) as (-> & B3 & L3); auto.
  destruct (load_step' _ d B3 L3) as (-> & B4 & L4); auto.
  destruct (load_step' _ e B4 L4) as (-> & B5 & L5); auto.
  destruct (load_step' _ f B5 L5) as (-> & B6 & L6); auto.
  destruct (load_step' _ g B6 L6) as (-> & B7 & L7); auto.
  destruct (load_step' _ i B7 L7) as (-> & B8 & L8); auto.
  change (256 * le_val ?l) with (le_val (0 :: l)). f_equal. f_equal. clear.
  cbn [covered existsb]. rewrite !(Z.leb_antisym _ 128). unfold upper.
  destruct (i <? 128), (g <? 128), (f <? 128), (e <? 128), (d <? 128), (c <? 128), (b <? 128), (a <? 128); reflexivity.
Qed.
Lemma load_app : forall p s r, unaligned_load (p ++ s) (List.length p) r = unaligned_load p (List.length p) r.
Proof. induction p as [|c p IH]; intros s r; [now destruct s|]. apply IH. Qed.
Lemma load_prefix a b c d e f g i s r : unaligned_load (a :: b :: c :: d :: e :: f :: g :: i :: s) 8 r = unaligned_load [a; b; c; d; e; f; g; i] 8 r.
Proof. apply (load_app [a; b; c; d; e; f; g; i]). Qed.
Lemma load_tail p : bytes_ok p -> (List.length p <= 8)%nat -> load_bytes p = le_val p.
Proof.
  intros H L. unfold load_bytes. rewrite <- fold_left_rev_right, rev_involutive.
  induction p as [|c p IH]; [reflexivity|]. inversion H; subst. cbn [List.length] in L. cbn [fold_right le_val]. rewrite IH by (auto; lia).
  pose proof (le_val_bound p ltac:(assumption)) as B. assert (256 ^ Z.of_nat (List.length p) <= 256 ^ 7) by (apply Z.pow_le_mono_r; lia).
  unfold is_byte in *. unfold u64. rewrite Z.shiftl_mul_pow2 by lia. change (256 ^ 7) with (2 ^ 56) in *. rewrite (Z.mod_small (le_val p * 2 ^ 8)) by lia. rewrite Z.mod_small by lia. lia.
Qed.
Lemma blocks_seen : forall n s h, bytes_ok s -> (List.length s < 8 * n)%nat ->
  hash_blocks (as_seen s) h =
  let '(hash, rest) := murmur_blocks (List.length s / 8) s h in if Z.land (Z.of_nat (List.length s)) 7 =? 0 then hash else u64 (Z.lxor hash (load_bytes rest) * murmur_mul).
Proof.
  induction n as [|n IH]; intros s h Hb Hl; [lia|].
  assert (Short : forall p, bytes_ok p -> (List.length p < 8)%nat -> p <> [] -> as_seen p = p -> hash_blocks p h = times_m (Z.lxor h (le_val p)) ->
    hash_blocks (as_seen p) h = let '(hash, rest) := murmur_blocks (List.length p / 8) p h in
      if Z.land (Z.of_nat (List.length p)) 7 =? 0 then hash else u64 (Z.lxor hash (load_bytes rest) * murmur_mul)).
  { intros p Bp Lp Np -> ->. rewrite Nat.div_small by exact Lp. cbn [murmur_blocks]. change 7 with (Z.ones 3). rewrite Z.land_ones, Z.mod_small by lia.
    destruct p as [|c p]; [congruence|]. destruct (Z.eqb_spec (Z.of_nat (List.length (c :: p))) 0) as [Q|]; [cbn [List.length] in Q; lia|].
    rewrite times_mul, load_tail by (auto; lia). reflexivity. }
  destruct s as [|? s]; [reflexivity|].
  do 7 (destruct s as [|? s]; [apply Short; [exact Hb|cbn [List.length]; lia|discriminate|reflexivity|reflexivity]|]). clear Short.
  cbn [as_seen]. unfold bytes_ok in Hb. repeat match goal with H : Forall _ (_ :: _) |- _ => inversion H; clear H; subst end.
  cbn [List.length] in *.
  replace (S (S (S (S (S (S (S (S (List.length s)))))))) / 8)%nat with (S (List.length s / 8))%nat
    by (replace (S (S (S (S (S (S (S (S (List.length s))))))))) with (List.length s + 1 * 8)%nat by lia; rewrite Nat.div_add by lia; lia).
  replace (Z.land (Z.of_nat (S (S (S (S (S (S (S (S (List.length s)))))))))) 7) with (Z.land (Z.of_nat (List.length s)) 7).
  2: { change 7 with (Z.ones 3). rewrite !Z.land_ones by lia. lia. }
  cbn [murmur_blocks skipn]. rewrite <- IH by (auto; lia). clear IH.
  rewrite times_mul, fold47_mix, !times_mul.
  rewrite load_prefix.
  rewrite load_block by (unfold bytes_ok; auto 10). cbn [covered rev app]. reflexivity.
Qed.
Lemma as_seen_length : forall n s, (List.length s < 8 * n)%nat -> List.length (as_seen s) = List.length s.
Proof.
  induction n as [|n IH]; intros s L; [lia|]. do 8 (destruct s as [|? s]; [reflexivity|]). cbn [as_seen covered rev app List.length] in *. now rewrite IH by lia.
Qed.
(** The library's hash is MurmurHash64A of the text as the library sees it, for every text. *)
Theorem C59_hash : forall s, bytes_ok s -> murmur64 s = MurmurHash64A 0xbadd00d00 (as_seen s).
Proof.
  intros s Hb. unfold murmur64, MurmurHash64A. rewrite (as_seen_length (S (List.length s))) by lia.
  rewrite (blocks_seen (S (List.length s))) by (auto; lia). rewrite times_mul. replace (Z.to_nat (Z.of_nat (List.length s) / 8)) with (List.length s / 8)%nat.
  - destruct (murmur_blocks _ s _) as [h r]. rewrite fold47_mix, times_mul, fold47_mix. reflexivity.
  - rewrite <- (Nat2Z.id (List.length s / 8)). f_equal. rewrite Nat2Z.inj_div. reflexivity.
Qed.
Print Assumptions C59_hash.
(** Texts of less than eight bytes: the published function itself. *)
Theorem C59_short_texts : forall s, bytes_ok s -> (List.length s < 8)%nat -> murmur64 s = MurmurHash64A 0xbadd00d00 s.
Proof.
  intros s Hb L. rewrite C59_hash by exact Hb. f_equal. do 8 (destruct s as [|? s]; [reflexivity|]). cbn [List.length] in L. lia.
Qed.
Print Assumptions C59_short_texts.
Lemma as_seen_app : forall n p s, List.length p = (8 * n)%nat -> as_seen (p ++ s) = as_seen p ++ as_seen s.
Proof.
  induction n as [|n IH]; intros p s L; [now destruct p|]. do 8 (destruct p as [|? p]; [cbn [List.length] in L; lia|]).
  cbn [app as_seen covered rev]. rewrite IH by (cbn [List.length] in L; lia). reflexivity.
Qed.
(** The first byte of every block of eight does not matter: texts which differ only there have the same hash, and
    if they are not names they are read as the same name. *)
Theorem C59_first_byte : forall p a b q, bytes_ok (p ++ a :: q) -> bytes_ok (p ++ b :: q) ->
  Nat.modulo (List.length p) 8 = 0%nat -> (7 <= List.length q)%nat ->
  murmur64 (p ++ a :: q) = murmur64 (p ++ b :: q) /\
  (~ valid_name_text (p ++ a :: q) -> ~ valid_name_text (p ++ b :: q) -> name_from_json_string (p ++ a :: q) = name_from_json_string (p ++ b :: q)).
Proof.
  intros p a b q Ha Hb M L.
  assert (E : murmur64 (p ++ a :: q) = murmur64 (p ++ b :: q)).
  { rewrite !C59_hash by assumption. f_equal. rewrite !(as_seen_app (List.length p / 8) p) by (rewrite (Nat.div_mod_eq (List.length p) 8) at 1; lia). f_equal.
    do 7 (destruct q as [|? q]; [cbn [List.length] in L; lia|]). reflexivity. }
  split; [exact E|]. intros Na Nb. rewrite (proj2 (proj2 (C09_json_name _)) Na), (proj2 (proj2 (C09_json_name _)) Nb). exact E.
Qed.
Print Assumptions C59_first_byte.
(** A byte from 128 on hides all bytes before it in its block. *)
Theorem C59_hidden_bytes : forall p a b c q, bytes_ok (p ++ a ++ c :: q) -> bytes_ok (p ++ b ++ c :: q) ->
  Nat.modulo (List.length p) 8 = 0%nat -> List.length a = List.length b -> (List.length a < 8)%nat -> (8 <= List.length (a ++ c :: q))%nat -> 128 <= c ->
  murmur64 (p ++ a ++ c :: q) = murmur64 (p ++ b ++ c :: q).
Proof.
  intros p a b c q Ha Hb M Lab La L8 Hc. rewrite !C59_hash by assumption. f_equal.
  rewrite !(as_seen_app (List.length p / 8) p) by (rewrite (Nat.div_mod_eq (List.length p) 8) at 1; lia). f_equal. clear Ha Hb M.
  assert (Q : (128 <=? c) = true) by lia. rewrite app_length in L8. cbn [List.length] in L8.
  do 8 (destruct a as [|? a]; [destruct b as [|? b]; [|discriminate Lab];
    cbn [List.length] in L8;
    do 8 (try (destruct q as [|? q]; [cbn [List.length] in L8; lia|]; cbn [List.length] in L8));
    cbn [app as_seen covered existsb]; rewrite ?Q; cbn [orb]; rewrite ?Bool.orb_true_r; reflexivity|destruct b as [|? b]; [discriminate Lab|]]).
  cbn [List.length] in La. lia.
Qed.
Print Assumptions C59_hidden_bytes.
(** It is not the published function, and different texts are read as the same name. *)
Theorem C59_published_refuted : exists s, bytes_ok s /\ ~ valid_name_text s /\ murmur64 s <> MurmurHash64A 0xbadd00d00 s.
Proof.
  exists (str "Alice and Bob"). split; [apply bytes_okb_spec; reflexivity|]. split.
  - intros (_ & F & _). vm_compute in F. discriminate.
  - vm_compute. discriminate.
Qed.
Print Assumptions C59_published_refuted.
Theorem C59_collision_refuted : exists s t, s <> t /\ ~ valid_name_text s /\ ~ valid_name_text t /\ name_from_json_string s = name_from_json_string t.
Proof.
  exists (str "Alice and Bob"), (str "Blice and Bob"). split; [vm_compute; discriminate|].
  assert (NA : ~ valid_name_text (str "Alice and Bob")) by (intros (_ & F & _); vm_compute in F; discriminate).
  assert (NB : ~ valid_name_text (str "Blice and Bob")) by (intros (_ & F & _); vm_compute in F; discriminate).
  split; [exact NA|]. split; [exact NB|].
  apply (C59_first_byte [] 65 66 (str "lice and Bob")); [apply bytes_okb_spec; reflexivity|apply bytes_okb_spec; reflexivity|reflexivity|cbn; lia|exact NA|exact NB].
Qed.
Print Assumptions C59_collision_refuted.
Example C59_example :
  bytes_ok (str "Hello" ++ [200] ++ str "xyz1") /\ murmur64 (str "Hello" ++ [200] ++ str "xyz1") = murmur64 (str "Jumbo" ++ [200] ++ str "xyz1") /\
  as_seen (str "Hello" ++ [200] ++ str "xyz1") = [0; 121; 120; 200; 255; 255; 255; 255; 122; 49].
Proof. split; [apply bytes_okb_spec; reflexivity|split; vm_compute; reflexivity]. Qed.
