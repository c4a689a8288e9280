(** * Soundness of native decoding (proofs only) *)
From Verif Require Import Base Stream StreamFacts TypedBin TypedSpec ValOrder TypedBinFacts.

Definition dec_ok (P : val -> Prop) (f : istream -> res (val * istream)) : Prop :=
  forall s, bytes_ok s -> Z.of_nat (List.length s) < 2 ^ 32 ->
  match f s with
  | Ok (v, r) => (exists p, s = p ++ r) /\ P v
  | Err e => In e decode_errors
  | Undef w => In w decode_hazards
  end.
Definition dec_lok (P : list val -> Prop) (f : istream -> res (list val * istream)) : Prop :=
  forall s, bytes_ok s -> Z.of_nat (List.length s) < 2 ^ 32 ->
  match f s with
  | Ok (v, r) => (exists p, s = p ++ r) /\ P v
  | Err e => In e decode_errors
  | Undef w => In w decode_hazards
  end.
Definition dec_gok {A} (P : A -> istream -> istream -> Prop) (f : istream -> res (A * istream)) : Prop :=
  forall s, bytes_ok s -> Z.of_nat (List.length s) < 2 ^ 32 ->
  match f s with
  | Ok (v, r) => (exists p, s = p ++ r) /\ P v s r
  | Err e => In e decode_errors
  | Undef w => In w decode_hazards
  end.

Lemma gok_bind {A B} (P : A -> istream -> istream -> Prop) (Q : B -> istream -> istream -> Prop)
      (f : istream -> res (A * istream)) (g : A -> istream -> res (B * istream)) :
  dec_gok P f ->
  (forall a s0 s1, bytes_ok s0 -> Z.of_nat (List.length s0) < 2 ^ 32 -> P a s0 s1 ->
     (exists p, s0 = p ++ s1) ->
     match g a s1 with
     | Ok (v, r) => (exists p, s1 = p ++ r) /\ Q v s0 r
     | Err e => In e decode_errors
     | Undef w => In w decode_hazards
     end) ->
  dec_gok Q (fun s => let* (a, s) := f s in g a s).
Proof.
  intros Hf Hg s Hs Hl. specialize (Hf s Hs Hl). destruct (f s) as [[a s1]|e|w]; cbn [bind]; auto.
  destruct Hf as [[p Hp] Ha]. specialize (Hg a s s1 Hs Hl Ha (ex_intro _ p Hp)).
  destruct (g a s1) as [[b r]|e|w]; auto. destruct Hg as [[q Hq] Hb]. split; auto.
  exists (p ++ q). subst. now rewrite app_assoc.
Qed.

Ltac in_list := cbn; tauto.

Lemma leb_read_gok n : dec_gok (fun l s r => leb_shape l /\ s = l ++ r) (leb_read n).
Proof.
  intros s Hs Hl. destruct (leb_read n s) as [[l r]|e|w] eqn:E.
  - apply leb_read_Ok in E as (-> & Hsh & Hn); auto. repeat split; eauto.
  - apply leb_read_Err in E as [(-> & _)|(-> & _)]; auto; in_list.
  - exfalso. eapply leb_read_not_undef; eauto.
Qed.
Lemma vu32_gok : dec_gok (fun n s r => 0 <= n < 2 ^ 32) varuint32_from_bin.
Proof.
  intros s Hs Hl. rewrite varuint32_from_bin_eq by assumption.
  pose proof (leb_read_gok 5 s Hs Hl) as H. destruct (leb_read 5 s) as [[l r]|e|w]; cbn [bind]; auto.
  destruct H as [Hp _]. split; auto. apply Z.mod_pos_bound. reflexivity.
Qed.
Lemma vu64_gok : dec_gok (fun n s r => 0 <= n < 2 ^ 64) varuint64_from_bin.
Proof.
  intros s Hs Hl. rewrite varuint64_from_bin_eq by assumption.
  pose proof (leb_read_gok 10 s Hs Hl) as H. destruct (leb_read 10 s) as [[l r]|e|w]; cbn [bind]; auto.
  destruct H as [Hp _]. split; auto. apply Z.mod_pos_bound. reflexivity.
Qed.
Lemma sread_gok n : 0 <= n ->
  forall s, bytes_ok s ->
  match sread s n with
  | Ok (b, r) => s = b ++ r /\ bytes_ok b /\ Z.of_nat (List.length b) = n
  | Err e => e = E_overrun
  | Undef w => False
  end.
Proof.
  intros Hn s Hs. unfold sread, check.
  destruct (Z.leb_spec n (Z.of_nat (List.length s))); cbn [bind]; auto.
  split; [symmetry; apply firstn_skipn|]. split.
  - rewrite <- (firstn_skipn (Z.to_nat n) s) in Hs. now apply bytes_ok_app in Hs.
  - rewrite firstn_length. lia.
Qed.

Lemma suffix_ok (s p r : bytes) : s = p ++ r -> bytes_ok s -> Z.of_nat (List.length s) < 2 ^ 32 ->
  bytes_ok r /\ Z.of_nat (List.length r) < 2 ^ 32.
Proof. intros -> H Hl. apply bytes_ok_app in H as [_ H]. rewrite app_length in Hl. split; auto. lia. Qed.

Lemma read_list_gok (W : val -> Prop) f n : dec_ok W f ->
  dec_gok (fun l _ _ => List.length l = n /\ Forall W l) (read_list f n).
Proof.
  intros Hf. induction n as [|n IH].
  - intros s Hs Hl. cbn. split; [now exists []|]. auto.
  - cbn [read_list]. apply gok_bind with (P := fun v _ _ => W v).
    + intros s Hs Hl. apply Hf; auto.
    + intros a s0 s1 Hs0 Hl0 Ha [p Hp]. destruct (suffix_ok _ _ _ Hp Hs0 Hl0) as [Hs1 Hl1].
      specialize (IH s1 Hs1 Hl1). destruct (read_list f n s1) as [[l r]|e|w]; cbn [bind]; auto.
      destruct IH as [Hp' [Hlen HF]]. split; auto. cbn. auto.
Qed.
Lemma read_tuple_gok (Ws : list (val -> bool)) fs :
  Forall2 (fun W f => dec_ok (fun v => W v = true) f) Ws fs ->
  dec_gok (fun l _ _ => forallb2 Ws l = true) (read_tuple fs).
Proof.
  induction 1 as [|W f Ws fs Hf _ IH].
  - intros s Hs Hl. cbn. split; [now exists []|]. auto.
  - cbn [read_tuple]. apply gok_bind with (P := fun v _ _ => W v = true).
    + intros s Hs Hl. apply Hf; auto.
    + intros a s0 s1 Hs0 Hl0 Ha [p Hp]. destruct (suffix_ok _ _ _ Hp Hs0 Hl0) as [Hs1 Hl1].
      specialize (IH s1 Hs1 Hl1). destruct (read_tuple fs s1) as [[l r]|e|w]; cbn [bind]; auto.
      destruct IH as [Hp' HF]. split; auto. cbn. now rewrite Ha, HF.
Qed.

Lemma of_raw_ok ref t w b : bitwise_size t = Some w -> ty_ok t = true -> bytes_ok b -> List.length b = w ->
  wf_with ref t (of_raw t b) = true.
Proof.
  intros Hw Ht Hb Hlen. pose proof (le_val_bound b Hb) as HB. rewrite Hlen, pow256 in HB.
  destruct t as [sg n| |n| | | | | | | | | | | | | | | |]; try discriminate; cbn in Hw; injection Hw as ->; cbn [ty_ok] in Ht.
  - unfold of_raw. destruct sg; cbn [wf_with]; unfold int_ok.
    + assert (R := to_signed_range (8 * Z.of_nat w) (le_val b) ltac:(lia) HB).
      unfold fits_s. lia.
    + unfold fits_u. lia.
  - cbn [of_raw wf_with]. rewrite Nat.eqb_refl, Ht. unfold fits_u. cbn [andb]. lia.
Qed.
Lemma cut_ok ref t w k b : bitwise_size t = Some w -> ty_ok t = true -> bytes_ok b ->
  (w * k <= List.length b)%nat ->
  List.length (cut t w k b) = k /\ forallb (wf_with ref t) (cut t w k b) = true.
Proof.
  intros Hw Ht. revert b; induction k as [|k IH]; intros b Hb Hlen; cbn [cut]; [auto|].
  destruct (IH (skipn w b)) as [IH1 IH2].
  - rewrite <- (firstn_skipn w b) in Hb. now apply bytes_ok_app in Hb.
  - rewrite skipn_length. lia.
  - split; [cbn; congruence|]. cbn [forallb]. rewrite IH2, andb_true_r.
    apply of_raw_ok with w; auto.
    + rewrite <- (firstn_skipn w b) in Hb. now apply bytes_ok_app in Hb.
    + rewrite firstn_length. lia.
Qed.

(** Emplacing keeps the container sorted and only holds elements read. *)
Lemma set_emplace_In key x l y : In y (set_emplace key x l) -> y = x \/ In y l.
Proof.
  induction l as [|z l IH]; cbn; [intuition|].
  destruct (vcmp (key x) (key z)); cbn; intuition.
Qed.
Lemma set_emplace_length key x l : (List.length (set_emplace key x l) <= S (List.length l))%nat.
Proof. induction l as [|z l IH]; cbn; [lia|]. destruct (vcmp (key x) (key z)); cbn; lia. Qed.
Definition is_lt (c : comparison) : bool := match c with Lt => true | _ => false end.
Lemma set_emplace_sorted key x l : strictly_sorted key l = true -> strictly_sorted key (set_emplace key x l) = true.
Proof.
  induction l as [|z l IH]; intros H; cbn; auto.
  cbn in H. apply andb_true_iff in H as [Hz H].
  destruct (vcmp (key x) (key z)) eqn:E.
  - cbn. now rewrite Hz, H.
  - cbn. rewrite E, Hz, H. rewrite !andb_true_r. cbn. apply forallb_forall. intros y Hy.
    rewrite forallb_forall in Hz. specialize (Hz y Hy). destruct (vcmp (key z) (key y)) eqn:E2; try discriminate.
    now rewrite (vcmp_lt_trans _ _ _ E E2).
  - cbn. rewrite IH by assumption. rewrite andb_true_r. apply forallb_forall. intros y Hy.
    apply set_emplace_In in Hy as [->|Hy].
    + apply vcmp_gt_lt in E. now rewrite E.
    + rewrite forallb_forall in Hz. now apply Hz.
Qed.
Lemma emplace_all_ok key (W : val -> bool) l acc :
  forallb W l = true -> forallb W acc = true -> strictly_sorted key acc = true ->
  forallb (fun x => negb (has_nan (key x))) acc = true ->
  match emplace_all key l acc with
  | Ok m => forallb W m = true /\ keys_ok key m = true /\ (List.length m <= List.length l + List.length acc)%nat
  | Err _ => False
  | Undef w => In w decode_hazards
  end.
Proof.
  revert acc; induction l as [|x l IH]; intros acc HW HA HS HN; cbn [emplace_all].
  - unfold keys_ok. rewrite HS, HN. auto.
  - cbn in HW. apply andb_true_iff in HW as [Hx HW]. destruct (has_nan (key x)) eqn:Hnx; [in_list|].
    specialize (IH (set_emplace key x acc) HW).
    destruct (emplace_all key l (set_emplace key x acc)) as [m|e|w]; try apply IH.
    + destruct IH as (H1 & H2 & H3).
      * apply forallb_forall. intros y Hy. apply set_emplace_In in Hy as [->|Hy]; auto.
        rewrite forallb_forall in HA. auto.
      * now apply set_emplace_sorted.
      * apply forallb_forall. intros y Hy. apply set_emplace_In in Hy as [->|Hy]; [now rewrite Hnx|].
        rewrite forallb_forall in HN. auto.
      * repeat split; auto. pose proof (set_emplace_length key x acc). cbn. lia.
    + apply forallb_forall. intros y Hy. apply set_emplace_In in Hy as [->|Hy]; auto.
      rewrite forallb_forall in HA. auto.
    + now apply set_emplace_sorted.
    + apply forallb_forall. intros y Hy. apply set_emplace_In in Hy as [->|Hy]; [now rewrite Hnx|].
      rewrite forallb_forall in HN. auto.
    + apply forallb_forall. intros y Hy. apply set_emplace_In in Hy as [->|Hy]; auto.
      rewrite forallb_forall in HA. auto.
    + now apply set_emplace_sorted.
    + apply forallb_forall. intros y Hy. apply set_emplace_In in Hy as [->|Hy]; [now rewrite Hnx|].
      rewrite forallb_forall in HN. auto.
Qed.

Lemma Forall_forallb {A} (f : A -> bool) l : Forall (fun x => f x = true) l <-> forallb f l = true.
Proof. rewrite Forall_forall, forallb_forall. reflexivity. Qed.

Lemma sound_with refw refd :
  (forall n, dec_ok (fun v => refw n v = true) (refd n)) ->
  forall t, ty_ok t = true -> dec_ok (fun v => wf_with refw t v = true) (from_bin_with refd t).
Proof.
  intros Href t. induction t as
    [sg n| |n| | | | |t IH|t IH|t IH|k t IHk IHt|n t IH|n t IH|t IH|ts IH|ts IH|t IH|k t IH|n] using ty_ind';
    intros Ht s Hs Hl; cbn [from_bin_with].
  - pose proof (sread_gok (Z.of_nat n) ltac:(lia) s Hs) as H.
    destruct (sread s (Z.of_nat n)) as [[b r]|e|w]; cbn [bind]; [|subst; in_list|contradiction].
    destruct H as (E & Hb & Hn). split; [eauto|]. apply of_raw_ok with n; auto. lia.
  - destruct s as [|b s]; cbn [read_u8 bind]; [in_list|].
    destruct (b =? 0); [split; [now exists [b]|auto]|]. destruct (b =? 1); [split; [now exists [b]|auto]|in_list].
  - pose proof (sread_gok (Z.of_nat n) ltac:(lia) s Hs) as H.
    destruct (sread s (Z.of_nat n)) as [[b r]|e|w]; cbn [bind]; [|subst; in_list|contradiction].
    destruct H as (E & Hb & Hn). split; [eauto|]. apply of_raw_ok with n; auto. lia.
  - pose proof (vu32_gok s Hs Hl) as H. destruct (varuint32_from_bin s) as [[z r]|e|w]; cbn [bind]; auto.
    destruct H as [Hp Hz]. split; auto. cbn. unfold fits_u. lia.
  - rewrite varint32_from_bin_eq. pose proof (vu32_gok s Hs Hl) as H.
    destruct (varuint32_from_bin s) as [[z r]|e|w]; cbn [bind]; auto.
    destruct H as [Hp Hz]. split; auto. cbn [wf_with]. rewrite unzigzag_val by assumption.
    unfold fits_s. change (2 ^ (32 - 1)) with (2 ^ 31).
    assert (0 <= z / 2 < 2 ^ 31) by (split; [apply Z.div_pos; lia|apply Z.div_lt_upper_bound; lia]).
    assert (0 <= (z + 1) / 2 <= 2 ^ 31) by (split; [apply Z.div_pos; lia|apply Z.div_le_upper_bound; lia]).
    destruct (z mod 2 =? 0); lia.
  - revert s Hs Hl. apply (gok_bind (fun n _ _ => 0 <= n < 2 ^ 32) (fun v _ _ => wf_with refw TString v = true)
       varuint32_from_bin (fun n s => let* (b, s) := sread s n in Ok (VStr b, s))); [apply vu32_gok|].
    intros n s0 s1 Hs0 Hl0 Hn [p Hp]. destruct (suffix_ok _ _ _ Hp Hs0 Hl0) as [Hs1 Hl1].
    pose proof (sread_gok n ltac:(lia) s1 Hs1) as H.
    destruct (sread s1 n) as [[b r]|e|w]; cbn [bind]; [|subst; in_list|contradiction].
    destruct H as (E & Hb & Hlen). split; [eauto|]. cbn [wf_with].
    rewrite (proj2 (bytes_okb_spec b) Hb). unfold len_ok. cbn [andb]. lia.
  - revert s Hs Hl. apply (gok_bind (fun n _ _ => 0 <= n < 2 ^ 64) (fun v _ _ => wf_with refw TStream v = true)
       varuint64_from_bin (fun n s => let* _ := check_available s n in let* (b, s) := sread s n in Ok (VStr b, s))); [apply vu64_gok|].
    intros n s0 s1 Hs0 Hl0 Hn [p Hp]. destruct (suffix_ok _ _ _ Hp Hs0 Hl0) as [Hs1 Hl1].
    unfold check_available, check. destruct (Z.leb_spec n (Z.of_nat (List.length s1))); cbn [bind]; [|in_list].
    pose proof (sread_gok n ltac:(lia) s1 Hs1) as H'.
    destruct (sread s1 n) as [[b r]|e|w]; cbn [bind]; [|subst; in_list|contradiction].
    destruct H' as (E & Hb & Hlen). split; [eauto|]. cbn [wf_with].
    rewrite (proj2 (bytes_okb_spec b) Hb). unfold len_ok. cbn [andb]. lia.
  - (* TVec *) cbn [ty_ok] in Ht. destruct (bitwise_size t) as [w|] eqn:Ew.
    + revert s Hs Hl. apply (gok_bind (fun n _ _ => 0 <= n < 2 ^ 64) (fun v _ _ => wf_with refw (TVec t) v = true)
       varuint64_from_bin (fun n s =>
            let total := (n * Z.of_nat w) mod 2 ^ 64 in
            let* _ := check_available s total in
            let* _ := check (n <=? (2 ^ 63 - 1) / Z.of_nat w) E_length_error in
            let* (b, s) := sread s total in
            Ok (VList (cut t w (Z.to_nat n) b), s))); [apply vu64_gok|].
      intros n s0 s1 Hs0 Hl0 Hn [p Hp]. destruct (suffix_ok _ _ _ Hp Hs0 Hl0) as [Hs1 Hl1]. cbn zeta.
      assert (Hw : 0 < Z.of_nat w <= 16).
      { destruct t; try discriminate; cbn in Ew; inversion Ew; subst; cbn [ty_ok] in Ht; lia. }
      unfold check_available, check. set (total := (n * Z.of_nat w) mod 2 ^ 64).
      destruct (Z.leb_spec total (Z.of_nat (List.length s1))); cbn [bind]; [|in_list].
      destruct (Z.leb_spec n ((2 ^ 63 - 1) / Z.of_nat w)) as [Hmax|]; cbn [bind]; [|in_list].
      assert (Hsmall : n * Z.of_nat w <= 2 ^ 63 - 1).
      { pose proof (Z.mul_div_le (2 ^ 63 - 1) (Z.of_nat w) ltac:(lia)). nia. }
      assert (Etot : total = n * Z.of_nat w) by (apply Z.mod_small; nia).
      pose proof (sread_gok total ltac:(nia) s1 Hs1) as H'.
      destruct (sread s1 total) as [[b r]|e|?]; cbn [bind]; [|subst; in_list|contradiction].
      destruct H' as (E & Hb & Hlen). split; [eauto|]. cbn [wf_with].
      destruct (cut_ok refw t w (Z.to_nat n) b Ew Ht Hb ltac:(nia)) as [C1 C2].
      rewrite C2, andb_true_r. unfold len_ok. rewrite C1. nia.
    + revert s Hs Hl. apply (gok_bind (fun n _ _ => 0 <= n < 2 ^ 32) (fun v _ _ => wf_with refw (TVec t) v = true)
        varuint32_from_bin (fun n s => let* (l, s) := read_list (from_bin_with refd t) (Z.to_nat n) s in Ok (VList l, s))); [apply vu32_gok|].
      intros n s0 s1 Hs0 Hl0 Hn [p Hp]. destruct (suffix_ok _ _ _ Hp Hs0 Hl0) as [Hs1 Hl1].
      pose proof (read_list_gok _ _ (Z.to_nat n) (IH Ht) s1 Hs1 Hl1) as H.
      destruct (read_list _ _ s1) as [[l r]|e|w]; cbn [bind]; auto.
      destruct H as [Hq [Hlen HF]]. split; auto. cbn [wf_with]. apply Forall_forallb in HF. rewrite HF, andb_true_r.
      unfold len_ok. lia.
  - revert s Hs Hl. apply (gok_bind (fun n _ _ => 0 <= n < 2 ^ 32) (fun v _ _ => wf_with refw (TSeq t) v = true)
        varuint32_from_bin (fun n s => let* (l, s) := read_list (from_bin_with refd t) (Z.to_nat n) s in Ok (VList l, s))); [apply vu32_gok|].
    intros n s0 s1 Hs0 Hl0 Hn [p Hp]. destruct (suffix_ok _ _ _ Hp Hs0 Hl0) as [Hs1 Hl1].
    pose proof (read_list_gok _ _ (Z.to_nat n) (IH Ht) s1 Hs1 Hl1) as H.
    destruct (read_list _ _ s1) as [[l r]|e|w]; cbn [bind]; auto.
    destruct H as [Hq [Hlen HF]]. split; auto. cbn [wf_with]. apply Forall_forallb in HF. rewrite HF, andb_true_r.
    unfold len_ok. lia.
  - revert s Hs Hl. apply (gok_bind (fun n _ _ => 0 <= n < 2 ^ 32) (fun v _ _ => wf_with refw (TSet t) v = true)
        varuint32_from_bin (fun n s => let* (l, s) := read_list (from_bin_with refd t) (Z.to_nat n) s in
                                       let* l := emplace_all id_key l [] in Ok (VList l, s))); [apply vu32_gok|].
    intros n s0 s1 Hs0 Hl0 Hn [p Hp]. destruct (suffix_ok _ _ _ Hp Hs0 Hl0) as [Hs1 Hl1].
    pose proof (read_list_gok _ _ (Z.to_nat n) (IH Ht) s1 Hs1 Hl1) as H.
    destruct (read_list _ _ s1) as [[l r]|e|w]; cbn [bind]; auto.
    destruct H as [Hq [Hlen HF]]. apply Forall_forallb in HF.
    pose proof (emplace_all_ok id_key (wf_with refw t) l [] HF eq_refl eq_refl eq_refl) as HE.
    destruct (emplace_all id_key l []) as [m|e|w]; cbn [bind]; [|contradiction|exact HE].
    destruct HE as (H1 & H2 & H3). split; auto. cbn [wf_with]. rewrite H1, H2, !andb_true_r.
    unfold len_ok. cbn in H3. lia.
  - cbn [ty_ok] in Ht. apply andb_true_iff in Ht as [Htk Htt].
    revert s Hs Hl. apply (gok_bind (fun n _ _ => 0 <= n < 2 ^ 32) (fun v _ _ => wf_with refw (TMap k t) v = true)
        varuint32_from_bin (fun n s => let* (l, s) := read_list (pair_dec (from_bin_with refd k) (from_bin_with refd t)) (Z.to_nat n) s in
                                       let* l := emplace_all pair_key l [] in Ok (VList l, s))); [apply vu32_gok|].
    intros n s0 s1 Hs0 Hl0 Hn [p Hp]. destruct (suffix_ok _ _ _ Hp Hs0 Hl0) as [Hs1 Hl1].
    set (W := fun p => match p with VList [x; y] => wf_with refw k x && wf_with refw t y | _ => false end).
    assert (HP : dec_ok (fun v => W v = true) (pair_dec (from_bin_with refd k) (from_bin_with refd t))).
    { intros s Hs Hl. unfold pair_dec.
      pose proof (IHk Htk s Hs Hl) as Hk. destruct (from_bin_with refd k s) as [[x s2]|e|w]; cbn [bind]; auto.
      destruct Hk as [[p2 Hp2] Hx]. destruct (suffix_ok _ _ _ Hp2 Hs Hl) as [Hs2 Hl2].
      pose proof (IHt Htt s2 Hs2 Hl2) as Ht2. destruct (from_bin_with refd t s2) as [[y s3]|e|w]; cbn [bind]; auto.
      destruct Ht2 as [[p3 Hp3] Hy]. split; [exists (p2 ++ p3); subst; now rewrite app_assoc|].
      cbn. now rewrite Hx, Hy. }
    pose proof (read_list_gok _ _ (Z.to_nat n) HP s1 Hs1 Hl1) as H.
    destruct (read_list _ _ s1) as [[l r]|e|w]; cbn [bind]; auto.
    destruct H as [Hq [Hlen HF]]. apply Forall_forallb in HF.
    pose proof (emplace_all_ok pair_key W l [] HF eq_refl eq_refl eq_refl) as HE.
    destruct (emplace_all pair_key l []) as [m|e|w]; cbn [bind]; [|contradiction|exact HE].
    destruct HE as (H1 & H2 & H3). split; auto. cbn [wf_with]. fold W. rewrite H1, H2, !andb_true_r.
    unfold len_ok. cbn in H3. lia.
  - pose proof (read_list_gok _ _ n (IH Ht) s Hs Hl) as H.
    destruct (read_list _ _ s) as [[l r]|e|w]; cbn [bind]; auto.
    destruct H as [Hq [Hlen HF]]. split; auto. cbn [wf_with]. apply Forall_forallb in HF. rewrite HF, andb_true_r.
    now apply Nat.eqb_eq.
  - cbn [ty_ok] in Ht. apply andb_true_iff in Ht as [Hn Ht].
    revert s Hs Hl. apply (gok_bind (fun n _ _ => 0 <= n < 2 ^ 32) (fun v _ _ => wf_with refw (TCArr n t) v = true)
        varuint32_from_bin (fun m s =>
        let* _ := check (m =? Z.of_nat n) E_array_size_mismatch in
        match bitwise_size t with
        | Some w => let* (b, s) := sread s (m * Z.of_nat w) in Ok (VList (cut t w n b), s)
        | None => let* (l, s) := read_list (from_bin_with refd t) n s in Ok (VList l, s)
        end)); [apply vu32_gok|].
    intros m s0 s1 Hs0 Hl0 Hm [p Hp]. destruct (suffix_ok _ _ _ Hp Hs0 Hl0) as [Hs1 Hl1].
    unfold check. destruct (Z.eqb_spec m (Z.of_nat n)) as [->|]; cbn [bind]; [|in_list].
    destruct (bitwise_size t) as [w|] eqn:Ew.
    + pose proof (sread_gok (Z.of_nat n * Z.of_nat w) ltac:(lia) s1 Hs1) as H'.
      destruct (sread s1 _) as [[b r]|e|?]; cbn [bind]; [|subst; in_list|contradiction].
      destruct H' as (E & Hb & Hlen). split; [eauto|]. cbn [wf_with].
      destruct (cut_ok refw t w n b Ew Ht Hb ltac:(lia)) as [C1 C2].
      rewrite C2, andb_true_r. unfold len_ok. rewrite C1, Nat.eqb_refl. cbn [andb]. lia.
    + pose proof (read_list_gok _ _ n (IH Ht) s1 Hs1 Hl1) as H.
      destruct (read_list _ _ s1) as [[l r]|e|w]; cbn [bind]; auto.
      destruct H as [Hq [Hlen HF]]. split; auto. cbn [wf_with]. apply Forall_forallb in HF. rewrite HF, andb_true_r.
      unfold len_ok. rewrite Hlen, Nat.eqb_refl. cbn [andb]. lia.
  - destruct s as [|b s]; cbn [read_u8 bind]; [in_list|].
    destruct (b =? 0); [split; [now exists [b]|auto]|]. destruct (b =? 1); [|in_list].
    apply bytes_ok_cons in Hs as [_ Hs]. cbn [List.length] in Hl.
    pose proof (IH Ht s Hs ltac:(lia)) as H. destruct (from_bin_with refd t s) as [[x r]|e|w]; cbn [bind]; auto.
    destruct H as [[p ->] Hx]. split; [now exists (b :: p)|exact Hx].
  - cbn [ty_ok] in Ht.
    revert s Hs Hl. apply (gok_bind (fun n _ _ => 0 <= n < 2 ^ 32) (fun v _ _ => wf_with refw (TVariant ts) v = true)
        varuint32_from_bin (fun i s => match nthz (map (from_bin_with refd) ts) i with
        | Some f => let* (x, s) := f s in Ok (VVar i x, s)
        | None => Err E_bad_variant_index
        end)); [apply vu32_gok|].
    intros i s0 s1 Hs0 Hl0 Hi [p Hp]. destruct (suffix_ok _ _ _ Hp Hs0 Hl0) as [Hs1 Hl1].
    assert (HN : forall j, match nthz (map (wf_with refw) ts) j, nthz (map (from_bin_with refd) ts) j with
                 | Some a, Some b => dec_ok (fun v => a v = true) b
                 | None, None => True
                 | _, _ => False
                 end).
    { intros j. apply nthz_map2. rewrite forallb_forall in Ht. rewrite Forall_forall in IH |- *. auto. }
    specialize (HN i).
    destruct (nthz (map (wf_with refw) ts) i) as [W|] eqn:EW, (nthz (map (from_bin_with refd) ts) i) as [f|];
      try contradiction; [|in_list].
    specialize (HN s1 Hs1 Hl1). destruct (f s1) as [[x r]|e|w]; cbn [bind]; auto.
    destruct HN as [Hq Hx]. split; auto. cbn [wf_with]. rewrite EW, Hx. unfold fits_u. lia.
  - cbn [ty_ok] in Ht.
    assert (HF2 : Forall2 (fun W f => dec_ok (fun v => W v = true) f) (map (wf_with refw) ts) (map (from_bin_with refd) ts)).
    { clear -IH Ht. induction IH; cbn in *; constructor; apply andb_true_iff in Ht as [? ?]; auto. }
    pose proof (read_tuple_gok _ _ HF2 s Hs Hl) as H.
    destruct (read_tuple _ s) as [[l r]|e|w]; cbn [bind]; auto.
  - cbn [ty_ok] in Ht. apply andb_true_iff in Ht as [Hm Ht].
    destruct s as [|b s].
    + destruct t; try discriminate; cbn [default_val bind]; (split; [now exists []|reflexivity]).
    + pose proof (IH Ht (b :: s) Hs Hl) as H. destruct (from_bin_with refd t (b :: s)) as [[x r]|e|w]; auto.
      destruct H as [Hp Hx]. split; auto. destruct x; cbn [wf_with]; now rewrite Hm, Hx.
  - cbn [ty_ok] in Ht. pose proof (IH Ht s Hs Hl) as H. destruct (from_bin_with refd t s) as [[x r]|e|w]; auto.

  - pose proof (Href n s Hs Hl) as H. destruct (refd n s) as [[x r]|e|w]; auto.
Qed.

Lemma sound_bin env fuel : (forall n, ty_ok (env n) = true) ->
  forall t, ty_ok t = true -> dec_ok (fun v => wf env fuel t v = true) (from_bin env fuel t).
Proof.
  intros He. induction fuel as [|fuel IH]; intros t Ht; rewrite wf_unfold, from_bin_unfold.
  - apply sound_with; [|exact Ht]. intros n s Hs Hl. in_list.
  - apply sound_with; [|exact Ht]. intros n. apply IH. apply He.
Qed.
