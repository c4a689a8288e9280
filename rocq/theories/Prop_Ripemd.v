(** * C47: the streaming RIPEMD-160 computes the published function. *)
From Verif Require Import Base Ripemd160 RipemdSpec RipemdFacts Hex.

(** Feeding data in any pieces (each below 2^31 bytes) gives the published digest of
    all the data, whatever the split. *)
Theorem C47_streaming : forall chunks,
  Forall (fun c => Z.of_nat (List.length c) < 2 ^ 31) chunks ->
  ripemd160_digest (fold_left ripemd160_update chunks ripemd160_init) = Some (RIPEMD160 (concat chunks)).
Proof.
  intros chunks H. apply digest_spec.
  assert (G : forall s m, inv s m -> inv (fold_left ripemd160_update chunks s) (m ++ concat chunks)).
  { induction H as [|c l Hc Hl IH]; intros s m Hi; cbn [fold_left concat]; [now rewrite app_nil_r|].
    rewrite app_assoc. apply IH, update_inv; auto. }
  apply (G _ []), init_inv.
Qed.
Print Assumptions C47_streaming.
Theorem C47_digest_suffix : forall data suffix,
  Z.of_nat (List.length data) < 2 ^ 31 -> Z.of_nat (List.length suffix) < 2 ^ 31 ->
  digest_suffix_ripemd160 data suffix = Ok (RIPEMD160 (data ++ suffix)).
Proof.
  intros d s Hd Hs. unfold digest_suffix_ripemd160.
  pose proof (C47_streaming [d; s] ltac:(repeat constructor; auto)) as H. cbn [fold_left concat] in H. rewrite app_nil_r in H. now rewrite H.
Qed.
Print Assumptions C47_digest_suffix.
Theorem C47_digest_size : forall m, List.length (RIPEMD160 m) = 20%nat /\ bytes_ok (RIPEMD160 m).
Proof.
  intros m. unfold RIPEMD160. cbv zeta. destruct (fold_left _ _ _) as [[[[a b] c] d] e]. unfold output. split.
  - rewrite !app_length, !le_bytes_length. reflexivity.
  - repeat (apply bytes_ok_app; split); apply le_bytes_ok.
Qed.
Print Assumptions C47_digest_size.
(** The round constants written in the specification as numbers are cube roots. *)
Theorem C47_right_constants : is_cbrt30 2 (K_right 0) /\ is_cbrt30 3 (K_right 16) /\ is_cbrt30 5 (K_right 32) /\ is_cbrt30 7 (K_right 48).
Proof. unfold is_cbrt30, K_right. cbn [nth Nat.div Nat.divmod fst Nat.sub]. repeat split; vm_compute; congruence. Qed.
Print Assumptions C47_right_constants.
(** A piece of 2^31 bytes or more, below 2^32, is refused: its length is negative as an int. *)
Theorem C47_too_long : forall data suffix,
  2 ^ 31 <= Z.of_nat (List.length data) < 2 ^ 32 -> digest_suffix_ripemd160 data suffix = Err E_invalid_signature.
Proof.
  intros d s H. unfold digest_suffix_ripemd160.
  assert (E : ripemd160_update ripemd160_init d = ripemd160_wipe).
  { unfold ripemd160_update. assert (W : wrap_s 32 (Z.of_nat (List.length d)) <? 0 = true).
    { unfold wrap_s, to_signed. rewrite Z.mod_small by lia. change (2 ^ (32 - 1)) with (2 ^ 31). destruct (_ <? 2 ^ 31) eqn:E; lia. }
    rewrite W, Bool.orb_true_r. reflexivity. }
  rewrite E. reflexivity.
Qed.
Print Assumptions C47_too_long.
Example C47_example : Ok (RIPEMD160 (str "abc")) = from_json_hex (str "8eb208f7e05d987a9b044a8e98c6b087f15a0bfc").
Proof.
  change (str "abc") with (str "a" ++ str "bc"). rewrite <- (C47_digest_suffix (str "a") (str "bc")) by (vm_compute; reflexivity).
  lazy. reflexivity.
Qed.
