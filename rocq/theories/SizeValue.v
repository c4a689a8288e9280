(** * SizeValue: how many characters the bytes of an ABI value can become (proofs only, for C61) *)
From Verif Require Import Base Stream StreamFacts TypedBin TypedSpec TypedBinFacts Keys KeysFacts Json JsonSpec Abi AbiScalar AbiScalarFacts AbiValue AbiBinSound SizeSpec SizeScalar SizeText.

(** ** Values *)
Definition fsize (kv : bytes * jv) : nat := S (len (to_json_string (fst kv) ++ [58] ++ print (snd kv))).
Lemma sep_len l : (len (sep_concat l) <= fold_right (fun x n => len x + 1 + n)%nat O l)%nat.
Proof.
  induction l as [|x l IH]; [cbn; lia|]. destruct l as [|y l]; [cbn [sep_concat fold_right]; lia|].
  change (sep_concat (x :: y :: l)) with (x ++ [44] ++ sep_concat (y :: l)). rewrite !app_length. change (fold_right (fun x n => len x + 1 + n)%nat O (x :: y :: l)) with (len x + 1 + fold_right (fun x n => len x + 1 + n)%nat O (y :: l))%nat. cbn [len]. lia.
Qed.
Lemma value_size E m L : solid m -> names_up_to L m -> forall W, W = (6 * L + 6)%nat ->
  (forall k ext p v j, shows E m k ext p v j -> forall pre, bytes_ok pre -> form v pre -> small_text (110 + W * k) j pre) /\
  (forall k q l js, shows_items E m k q l js -> forall pre, bytes_ok pre -> forms l pre -> (len js <= len pre /\ fold_right (fun j n => len (print j) + 1 + n) O js <= (111 + W * k) * len pre)%nat) /\
  (forall k ext fs l js, shows_fields E m k ext fs l js -> Forall (fun f => (len (fst f) <= L)%nat) fs -> forall pre, bytes_ok pre -> forms l pre ->
     (len js <= len pre /\ fold_right (fun kv n => fsize kv + n) O js <= (110 + W * k + (6 * L + 4)) * len pre)%nat /\ (Exists (fun f => ~ extension_type m (snd f)) fs -> js <> [])).
Proof.
  intros SO NU W EW. apply shows_mutind.
  - intros k ext p b v j Hp Ok J pre B F. inversion F as [b' v' p' Fb| | | | |]; subst. destruct (scalar_text E b v j pre B Ok J Fb) as [L1 L2]. split; [exact L1|]. eapply Nat.le_trans; [exact L2|]. apply Nat.mul_le_mono_r. lia.
  - intros k ext p q Hp pre B F. inversion F; subst. unfold small_text. cbn [len print]. change (len (str "null")) with 4%nat. lia.
  - intros k ext p q v j Hp _ IH pre B F. inversion F as [| |v' p' F'| | |]; subst. inversion B as [|? ? _ B']; subst. destruct (IH p' B' F') as [L1 L2]. unfold small_text. cbn [len]. split; [lia|]. rewrite Nat.mul_succ_r. lia.
  - intros k ext p q v j Hp _ IH pre B F. exact (IH pre B F).
  - intros k ext p q l js Hp Hl _ IH pre B F. inversion F as [| | |l' n p' V F'| |]; subst. apply bytes_ok_app in B as [_ B]. destruct (IH p' B F') as [L1 L2].
    assert (Vn : (1 <= len n)%nat) by (specialize (V []); rewrite app_nil_r in V; apply vu_nonempty in V as (c & -> & X); rewrite app_nil_r; exact X).
    unfold small_text. cbn [print]. rewrite !app_length. cbn [len]. pose proof (sep_len (map print js)) as S. 
    assert (S' : fold_right (fun x n => len x + 1 + n)%nat O (map print js) = fold_right (fun j n => (len (print j) + 1 + n)%nat) O js) by (clear; induction js as [|j js IH]; [reflexivity|cbn [map fold_right]; now rewrite IH]).
    rewrite S' in S. split; [lia|]. rewrite Nat.mul_succ_r. nia.
  - intros k ext p fs l js Hp _ IH pre B F. inversion F as [| | | |l' p' F'|]; subst l'; subst. destruct (IH (NU p fs (or_introl Hp)) pre B F') as [[L1 L2] L3]. specialize (L3 (SO p fs Hp)).
    unfold small_text. cbn [print]. rewrite !app_length. cbn [len].
    match goal with |- context [sep_concat ?l] => pose proof (sep_len l) as S end.
    assert (S' : fold_right (fun x n => len x + 1 + n)%nat O (map (fun kv => to_json_string (fst kv) ++ [58] ++ print (snd kv)) js) = fold_right (fun kv n => fsize kv + n)%nat O js) by (clear; induction js as [|j js IH]; [reflexivity|cbn [map fold_right]; rewrite IH; unfold fsize; lia]).
    rewrite S' in S. assert (J : (1 <= len js)%nat) by (destruct js; [congruence|cbn [len]; lia]). split; [lia|]. rewrite Nat.mul_succ_r. nia.
  - intros k ext p fs i name q v j Hp Hi Ri _ IH pre B F. inversion F as [| | | | |i' v' n p' V F']; subst. apply bytes_ok_app in B as [_ B]. destruct (IH p' B F') as [L1 L2].
    assert (Vn : (1 <= len n)%nat) by (specialize (V []); rewrite app_nil_r in V; apply vu_nonempty in V as (c & -> & X); rewrite app_nil_r; exact X).
    assert (N : (len name <= L)%nat). { pose proof (NU p fs (or_intror Hp)) as X. rewrite Forall_forall in X. apply (X (name, q)). clear - Hi. revert i Hi. induction fs as [|f fs IH]; intros i Hi; [discriminate|]. cbn [nthz] in Hi. destruct (i =? 0); [left; congruence|right; eauto]. }
    unfold small_text. cbn [print map sep_concat]. rewrite !app_length. cbn [len]. pose proof (string_len name). split; [lia|]. rewrite Nat.mul_succ_r. nia.
  - intros k q pre B F. inversion F; subst. cbn. lia.
  - intros k q v l j js _ IH _ IHs pre B F. inversion F as [|v' l' p' q' F1 F2]; subst. apply bytes_ok_app in B as [B1 B2]. destruct (IH p' B1 F1) as [L1 L2]. destruct (IHs q' B2 F2) as [M1 M2]. rewrite app_length. cbn [len fold_right]. split; [lia|]. nia.
  - intros k ext _ pre B F. inversion F; subst. split; [cbn; lia|]. intros X. inversion X.
  - intros k f fs Hx _ pre B F. inversion F; subst. split; [cbn; lia|]. intros X. apply Exists_exists in X as (g & G1 & G2). rewrite Forall_forall in Hx. destruct (G2 (Hx g G1)).
  - intros k ext name q fs v l j js _ IH _ IHs NF pre B F. inversion NF as [|? ? N NF']; subst. cbn [fst] in N. inversion F as [|v' l' p' q' F1 F2]; subst. apply bytes_ok_app in B as [B1 B2].
    destruct (IH p' B1 F1) as [L1 L2]. destruct (IHs NF' q' B2 F2) as [[M1 M2] _]. split; [|discriminate]. rewrite app_length. cbn [len fold_right]. split; [lia|]. unfold fsize at 1. cbn [fst snd]. rewrite !app_length. cbn [len]. pose proof (string_len name). nia.
Qed.
