(** * C39: opaque values *)
From Verif Require Import Base Stream StreamFacts TypedBin TypedSpec TypedBinFacts TypedBinSound BinLemmas Prop_Bin TypedBinLocal Opaque.

(** A value packed, stored as opaque and unpacked is the same value, and nothing is left. *)
Theorem C39_unpack env fuel t v : wf env fuel t v = true ->
  exists bin, convert_to_bin env fuel t v [] = Ok bin /\ bytes_ok bin /\
    unpack env fuel t (opaque_of_vector bin) = Ok (v, []) /\ empty [] = true /\ (empty (opaque_of_vector bin) = true <-> bin = []).
Proof.
  intros H. destruct (C03_native_binary_roundtrip env fuel t v H) as (b & E & D). destruct (C03_convert_roundtrip env fuel t v H) as (b' & E' & _ & B).
  exists b'. split; [exact E'|]. split; [exact B|]. rewrite convert_to_bin_eq, E in E'.
  assert (b' = b) as -> by congruence. specialize (D [] ltac:(constructor)). rewrite app_nil_r in D. split; [exact D|]. split; [reflexivity|].
  unfold empty, opaque_of_vector. destruct b; cbn [List.length]; split; intros; try reflexivity; try discriminate.
Qed.
Print Assumptions C39_unpack.

(** The binary form: a length and the bytes; read back it is the same object. Constructing from
    a stream reads the same form. *)
Theorem C39_binary o rest : bytes_ok o -> bytes_ok rest -> Z.of_nat (List.length o) < 2 ^ 32 ->
  exists b, opaque_to_bin vector_stream o [] = Ok b /\ opaque_from_bin (b ++ rest) = Ok (o, rest) /\ opaque_of_stream (b ++ rest) = Ok o.
Proof.
  intros H R L.
  assert (W : wf (fun _ => TBool) 0 TStream (VStr o) = true).
  { cbn [wf wf_with]. apply andb_true_iff. split; [|unfold len_ok; apply Z.ltb_lt; lia]. now apply bytes_okb_spec. }
  destruct (C03_native_binary_roundtrip _ _ _ _ W) as (b & E & D). exists b. split; [exact E|]. unfold opaque_of_stream, opaque_from_bin, stream_from_bin. rewrite D by exact R. auto.
Qed.
Print Assumptions C39_binary.

(** A truncated value is never unpacked: every strict prefix of the bytes is refused. (No
    might_not_exist members, which look at the end of the buffer.) *)
Theorem C39_missing_bytes env fuel t v bin : (forall n, no_maybe (env n) = true) -> no_maybe t = true ->
  unpack env fuel t bin = Ok (v, []) -> forall p tail, bin = p ++ tail -> tail <> [] -> forall x r, unpack env fuel t p <> Ok (x, r).
Proof.
  intros He Ht H p tail -> N x r E. destruct (from_bin_local env He fuel t Ht _ _ _ E) as (q & -> & F). unfold unpack in H. rewrite <- app_assoc in H. rewrite F in H.
  assert (X : r ++ tail = []) by congruence. apply app_eq_nil in X as [_ X]. contradiction.
Qed.
Print Assumptions C39_missing_bytes.
(** Bytes after the value are not reported: they are left, and [empty] tells. *)
Theorem C39_extra_bytes env fuel t v bin extra : wf env fuel t v = true -> convert_to_bin env fuel t v [] = Ok bin -> bytes_ok extra ->
  unpack env fuel t (opaque_of_vector (bin ++ extra)) = Ok (v, extra) /\ (extra <> [] -> empty extra = false).
Proof.
  intros H E X. destruct (C03_native_binary_roundtrip env fuel t v H) as (b & E2 & D). rewrite convert_to_bin_eq, E2 in E.
  assert (b = bin) as -> by congruence. split; [exact (D extra X)|]. intros N. unfold empty. destruct extra; [contradiction|]. cbn [List.length]. apply Z.eqb_neq. lia.
Qed.
Print Assumptions C39_extra_bytes.

(** ** Element by element
    [take_all n o] is the loop of the example in opaque.hpp:31-44: n times unpack_next. *)
Fixpoint take_all (env : nat -> ty) (fuel : nat) (t : ty) (n : nat) (o : bytes) : res (list val * bytes) :=
  match n with
  | O => Ok ([], o)
  | S n' => let* (x, o) := unpack_next env fuel t o in let* (l, o) := take_all env fuel t n' o in Ok (x :: l, o)
  end.
Lemma take_read env fuel t n o : take_all env fuel t n o = read_list (from_bin env fuel t) n o.
Proof. revert o. induction n as [|n IH]; intros o; [reflexivity|]. cbn [take_all read_list]. unfold unpack_next. destruct (from_bin env fuel t o) as [[x s]| |]; cbn [bind]; [now rewrite IH|reflexivity|reflexivity]. Qed.
Lemma leb_prefix p q r s : leb_shape p -> leb_shape q -> p ++ r = q ++ s -> p = q /\ r = s.
Proof.
  revert q. induction p as [|x p IH]; intros q Hp Hq E; [contradiction|]. destruct q as [|y q]; [contradiction|]. cbn [app] in E. injection E as -> E.
  cbn [leb_shape] in Hp, Hq. destruct p as [|x' p], q as [|y' q].
  - auto.
  - lia.
  - lia.
  - destruct Hp as [_ Hp], Hq as [_ Hq]. destruct (IH (y' :: q) Hp Hq E) as [-> ->]. auto.
Qed.
Lemma bitwise_one env fuel t w s : bitwise_size t = Some w -> from_bin env fuel t s = let* (b, s) := sread s (Z.of_nat w) in Ok (of_raw t b, s).
Proof. intros H. rewrite from_bin_unfold. destruct t; try discriminate H; cbn [bitwise_size] in H; injection H as ->; reflexivity. Qed.
Lemma sread_ok s n : (0 <= n <= Z.of_nat (List.length s)) -> sread s n = Ok (firstn (Z.to_nat n) s, skipn (Z.to_nat n) s).
Proof. intros H. unfold sread, check. assert (n <=? Z.of_nat (List.length s) = true) as -> by lia. reflexivity. Qed.
Lemma cut_read env fuel t w : bitwise_size t = Some w -> forall n s, (n * w <= List.length s)%nat ->
  read_list (from_bin env fuel t) n s = Ok (cut t w n (firstn (n * w) s), skipn (n * w) s).
Proof.
  intros W n. induction n as [|n IH]; intros s L; [reflexivity|]. cbn [read_list Nat.mul]. rewrite (bitwise_one _ _ _ _ _ W). rewrite sread_ok by nia. cbn [bind]. rewrite Nat2Z.id.
  rewrite IH by (rewrite skipn_length; lia). cbn [bind cut]. rewrite firstn_firstn, Nat.min_l by lia. assert (K : forall k, skipn k (skipn w s) = skipn (w + k) s).
  { clear. revert s. induction w as [|w IH]; intros s k; [reflexivity|]. destruct s as [|x s]; [cbn [skipn]; now rewrite !skipn_nil|]. cbn [skipn Nat.add]. apply IH. }
  rewrite K, skipn_firstn_comm. replace (w + n * w - w)%nat with (n * w)%nat by lia. reflexivity.
Qed.
(** Reading the size and then one element after the other gives the elements of the list which
    unpack gives, and leaves the same bytes. For element types which are copied as a block the
    size must not be written in more than five bytes ([unpack_size] reads 32 bits). *)
Theorem C39_one_by_one env fuel t o l r : ty_ok t = true -> bytes_ok o -> Z.of_nat (List.length o) < 2 ^ 32 ->
  unpack env fuel (TVec t) o = Ok (VList l, r) ->
  (exists n o', unpack_size o = Ok (n, o')) ->
  exists o', unpack_size o = Ok (Z.of_nat (List.length l), o') /\ take_all env fuel t (List.length l) o' = Ok (l, r).
Proof.
  intros Ht Ho Lo H (n0 & o' & U). exists o'. unfold unpack in H. rewrite from_bin_unfold in H. unfold unpack_size in *. rewrite take_read.
  destruct (bitwise_size t) as [w|] eqn:W.
  - cbn [from_bin_with] in H. rewrite W in H. apply bind_Ok in H as ([n s] & V & H). cbv zeta in H. apply bind_Ok in H as (u1 & A & H). apply bind_Ok in H as (u2 & Lim & H). apply bind_Ok in H as ([b s'] & Rd & H).
    assert (Hl : l = cut t w (Z.to_nat n) b) by congruence. assert (Hr : r = s') by congruence. subst l r. clear H.
    destruct (C02_varuint_readers 64 10 varuint64_from_bin o ltac:(right; auto) Ho) as (R64 & _). destruct (C02_varuint_readers 32 5 varuint32_from_bin o ltac:(left; auto) Ho) as (R32 & _).
    apply R64 in V as (p & -> & Sp & Lp & Vp). apply R32 in U as (q & E & Sq & Lq & Uq). destruct (leb_prefix _ _ _ _ Sp Sq E) as [<- <-].
    assert (Wp : 0 < Z.of_nat w <= 16). { destruct t; try discriminate W; cbn [bitwise_size] in W; injection W as ->; cbn [ty_ok] in Ht; [lia|]. apply orb_true_iff in Ht as [Q|Q]; apply Nat.eqb_eq in Q; lia. }
    assert (Np : 0 <= n < 2 ^ 64) by (rewrite Vp; apply Z.mod_pos_bound; lia).
    unfold check in Lim. destruct (Z.leb_spec n ((2 ^ 63 - 1) / Z.of_nat w)) as [Ln|]; [|discriminate].
    assert (Tn : n * Z.of_nat w < 2 ^ 64). { assert (n * Z.of_nat w <= (2 ^ 63 - 1) / Z.of_nat w * Z.of_nat w) by nia. pose proof (Z.mul_div_le (2 ^ 63 - 1) (Z.of_nat w) ltac:(lia)). lia. }
    rewrite (Z.mod_small (n * Z.of_nat w)) in * by nia. unfold check_available, check in A. destruct (Z.leb_spec (n * Z.of_nat w) (Z.of_nat (List.length s))) as [La|]; [|discriminate].
    rewrite app_length in Lo. assert (N32 : n < 2 ^ 32) by nia.
    assert (n0 = n). { rewrite Uq. assert (Bd : leb_value p mod 2 ^ 64 < 2 ^ 32) by lia. rewrite Vp. rewrite <- (Z.mod_small (leb_value p mod 2 ^ 64) (2 ^ 32)) by (rewrite <- Vp; lia).
      change (2 ^ 64) with (2 ^ 32 * 2 ^ 32). rewrite Z.rem_mul_r by lia. rewrite Z.mul_comm, Z.mod_add, Z.mod_mod by lia. reflexivity. }
    subst n0. rewrite sread_ok in Rd by lia. assert (Hb : b = firstn (Z.to_nat (n * Z.of_nat w)) s /\ s' = skipn (Z.to_nat (n * Z.of_nat w)) s) by (split; congruence). destruct Hb as [-> ->].
    assert (Lc : forall k x, List.length (cut t w k x) = k) by (clear; induction k as [|k IH]; intros x; [reflexivity|cbn [cut List.length]; now rewrite IH]).
    rewrite Lc. replace (Z.to_nat (n * Z.of_nat w)) with (Z.to_nat n * w)%nat by lia. split.
    + apply R32. exists p. rewrite Z2Nat.id by lia. auto.
    + apply cut_read; [exact W|nia].
  - cbn [from_bin_with] in H. rewrite W in H. apply bind_Ok in H as ([n s] & V & H). apply bind_Ok in H as ([l' s'] & Rd & H). assert (l' = l) by congruence. assert (s' = r) by congruence. subst l' s'.
    rewrite V in U. assert (n0 = n) by congruence. assert (o' = s) by congruence. subst n0 o'.
    assert (Lc : forall f k x y z, read_list f k x = Ok (y, z) -> List.length y = k).
    { clear. intros f. induction k as [|k IH]; intros x y z H; cbn [read_list] in H; [assert (y = []) by congruence; subst; reflexivity|].
      apply bind_Ok in H as ([a s] & _ & H). apply bind_Ok in H as ([l s'] & E & H). assert (y = a :: l) by congruence. subst. cbn [List.length]. f_equal. eauto. }
    pose proof (Lc _ _ _ _ _ Rd) as Q. rewrite from_bin_unfold.
    assert (Nn : 0 <= n). { destruct (C02_varuint_readers 32 5 varuint32_from_bin o ltac:(left; auto) Ho) as (R32 & _). pose proof (proj1 (R32 _ _) V) as (p & _ & _ & _ & ->). apply Z.mod_pos_bound. lia. }
    split; [rewrite V; do 2 f_equal; lia|]. rewrite Q. exact Rd.
Qed.
Print Assumptions C39_one_by_one.
(** Findings. A size of 2^32 is cut to 32 bits by unpack_size and not by unpack, and an over-long
    size is refused by the one and accepted by the other; both need the block copied types. *)
Theorem C39_size_refuted :
  (exists o e, bytes_ok o /\ unpack (fun _ => TBool) 0 (TVec (TInt false 1)) o = Err e /\
     exists o', unpack_size o = Ok (0, o') /\ take_all (fun _ => TBool) 0 (TInt false 1) 0 o' = Ok ([], [])) /\
  (exists o, bytes_ok o /\ unpack (fun _ => TBool) 0 (TVec (TInt false 1)) o = Ok (VList [VInt 7], []) /\ forall n o', unpack_size o <> Ok (n, o')).
Proof.
  split.
  - exists [128; 128; 128; 128; 16], E_overrun. split; [apply bytes_okb_spec; reflexivity|]. split; [reflexivity|]. exists []. split; reflexivity.
  - exists [129; 128; 128; 128; 128; 0; 7]. split; [apply bytes_okb_spec; reflexivity|]. split; [reflexivity|]. intros n o'. vm_compute. discriminate.
Qed.
Print Assumptions C39_size_refuted.
Example C39_hypotheses :
  let o := opaque_of_vector [2; 1; 65; 2; 66; 67; 9] in
  wf node_env 2 (TRef 0) node_val = true /\
  unpack (fun _ => TBool) 0 (TVec TString) o = Ok (VList [VStr (str "A"); VStr (str "BC")], [9]) /\
  unpack_size o = Ok (2, [1; 65; 2; 66; 67; 9]) /\ take_all (fun _ => TBool) 0 TString 2 [1; 65; 2; 66; 67; 9] = Ok ([VStr (str "A"); VStr (str "BC")], [9]) /\
  unpack (fun _ => TBool) 0 (TVec (TInt false 2)) [2; 1; 0; 2; 1] = Ok (VList [VInt 1; VInt 258], []) /\
  opaque_to_bin vector_stream o [] = Ok [7; 2; 1; 65; 2; 66; 67; 9].
Proof. vm_compute. repeat split. Qed.
