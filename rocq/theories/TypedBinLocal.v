(** * What a decoder reads does not depend on what follows (proofs only)

    Types with a might_not_exist member, which looks at the end of the stream, are
    excluded. *)
From Verif Require Import Base Stream StreamFacts TypedBin TypedSpec TypedBinFacts.

Fixpoint no_maybe (t : ty) : bool :=
  match t with
  | TMaybe _ => false
  | TVec t | TSeq t | TSet t | TArr _ t | TCArr _ t | TOpt t | TWrap _ t => no_maybe t
  | TMap k t => no_maybe k && no_maybe t
  | TVariant ts | TTuple ts => forallb no_maybe ts
  | _ => true
  end.

Definition local {A} (f : bytes -> res (A * bytes)) : Prop := forall s v r, f s = Ok (v, r) ->
  exists p, s = p ++ r /\ forall r', f (p ++ r') = Ok (v, r').

Lemma local_ret {A} (x : A) : local (fun s => Ok (x, s)).
Proof. intros s v r H. assert (v = x /\ r = s) as [-> ->] by (split; congruence). exists []. auto. Qed.
Lemma local_bind {A B} (f : bytes -> res (A * bytes)) (g : A -> bytes -> res (B * bytes)) :
  local f -> (forall x, local (g x)) -> local (fun s => let* (x, s) := f s in g x s).
Proof.
  intros Hf Hg s v r H. apply bind_Ok in H as [[x s1] [H1 H2]]. apply Hf in H1 as (p1 & -> & K1).
  apply Hg in H2 as (p2 & -> & K2). exists (p1 ++ p2). split; [now rewrite app_assoc|].
  intros r'. rewrite <- app_assoc, K1. cbn [bind]. apply K2.
Qed.
Lemma local_pure {A B} (m : res A) (g : A -> bytes -> res (B * bytes)) :
  (forall x, local (g x)) -> local (fun s => let* x := m in g x s).
Proof. intros Hg s v r H. destruct m as [x|e|w]; cbn [bind] in *; try discriminate. eapply Hg; eauto. Qed.
Lemma local_err {A} e : local (fun s => @Err (A * bytes) e). Proof. intros s v r H. discriminate. Qed.
Lemma local_undef {A} e : local (fun s => @Undef (A * bytes) e). Proof. intros s v r H. discriminate. Qed.
Lemma local_sread n : local (fun s => sread s n).
Proof.
  intros s v r H. unfold sread, check in H. destruct (n <=? Z.of_nat (List.length s)) eqn:L; [|discriminate]. cbn [bind] in H.
  assert (v = firstn (Z.to_nat n) s /\ r = skipn (Z.to_nat n) s) as [-> ->] by (split; congruence).
  assert (Lf : List.length (firstn (Z.to_nat n) s) = Z.to_nat n) by (apply firstn_length_le; lia).
  exists (firstn (Z.to_nat n) s). split; [now rewrite firstn_skipn|]. intros r'. unfold sread, check. rewrite app_length, Lf.
  destruct (n <=? Z.of_nat (Z.to_nat n + List.length r')) eqn:L2; [|lia]. cbn [bind].
  rewrite firstn_app, skipn_app, Lf, Nat.sub_diag. cbn [firstn skipn]. rewrite firstn_firstn, Nat.min_id, app_nil_r.
  rewrite skipn_firstn_comm, Nat.sub_diag. reflexivity.
Qed.
Lemma local_avail {A} n (g : bytes -> bytes -> res (A * bytes)) : (forall x, local (g x)) ->
  local (fun s => let* _ := check_available s n in let* (b, s) := sread s n in g b s).
Proof.
  intros Hg. assert (E : forall s, (let* _ := check_available s n in let* (b, s) := sread s n in g b s) = let* (b, s) := sread s n in g b s).
  { intros s. unfold check_available, sread. destruct (check _ _); reflexivity. }
  intros s v r H. rewrite E in H. apply (local_bind (fun s => sread s n) g (local_sread n) Hg) in H as (p & -> & K).
  exists p. split; auto. intros r'. rewrite E. apply K.
Qed.
Lemma local_u8 : local read_u8.
Proof. intros [|b s] v r H; [discriminate|]. cbn [read_u8] in H. assert (v = b /\ r = s) as [-> ->] by (split; congruence). exists [b]. auto. Qed.
Lemma local_varuint f bits limit : forall dest shift, local (varuint_from_bin_loop f bits limit dest shift).
Proof.
  induction f as [|f IH]; intros dest shift; [apply local_undef|]. cbn [varuint_from_bin_loop].
  apply (local_pure (check (shift <? limit) E_invalid_varuint_encoding)). intros _.
  apply (local_bind read_u8); [apply local_u8|]. intros b. cbv zeta. destruct (negb _); [apply IH|apply local_ret].
Qed.
Lemma local_vu32 : local varuint32_from_bin. Proof. apply local_varuint. Qed.
Lemma local_vu64 : local varuint64_from_bin. Proof. apply local_varuint. Qed.
Lemma local_list f n : local f -> local (read_list f n).
Proof.
  intros Hf. induction n as [|n IH]; [apply local_ret|]. cbn [read_list]. apply (local_bind f); auto. intros x.
  apply (local_bind (read_list f n)); auto. intros l. apply local_ret.
Qed.
Lemma local_tuple fs : Forall (@local val) fs -> local (read_tuple fs).
Proof.
  induction 1 as [|f fs Hf _ IH]; [apply local_ret|]. cbn [read_tuple]. apply (local_bind f); auto. intros x.
  apply (local_bind (read_tuple fs)); auto. intros l. apply local_ret.
Qed.
Lemma nthz_Forall {A} (P : A -> Prop) l : Forall P l -> forall i x, nthz l i = Some x -> P x.
Proof. induction 1 as [|y l Hy _ IH]; intros i x H; [discriminate|]. cbn [nthz] in H. destruct (i =? 0); [congruence|eauto]. Qed.
Lemma local_map ref ts : Forall (fun t => no_maybe t = true -> local (from_bin_with ref t)) ts -> forallb no_maybe ts = true ->
  Forall (@local val) (map (from_bin_with ref) ts).
Proof. intros H. induction H as [|t ts Ht _ IH]; intros F; [constructor|]. cbn [forallb] in F. apply andb_true_iff in F as [F1 F2]. constructor; auto. Qed.

Lemma local_with ref : (forall n, local (ref n)) -> forall t, no_maybe t = true -> local (from_bin_with ref t).
Proof.
  intros Href t. induction t as
    [sg n| |n| | | | |t IH|t IH|t IH|k t IHk IHt|n t IH|n t IH|t IH|ts IH|ts IH|t IH|k t IH|n] using ty_ind'; intros Ht; cbn [from_bin_with no_maybe] in *.
  - apply (local_bind (fun s => sread s (Z.of_nat n))); [apply local_sread|]. intros b. apply local_ret.
  - apply (local_bind read_u8); [apply local_u8|]. intros b. destruct (b =? 0); [apply local_ret|]. destruct (b =? 1); [apply local_ret|apply local_undef].
  - apply (local_bind (fun s => sread s (Z.of_nat n))); [apply local_sread|]. intros b. apply local_ret.
  - apply (local_bind varuint32_from_bin); [apply local_vu32|]. intros b. apply local_ret.
  - apply (local_bind varint32_from_bin); [|intros b; apply local_ret]. unfold varint32_from_bin.
    apply (local_bind varuint32_from_bin); [apply local_vu32|]. intros b. destruct (negb _); apply local_ret.
  - apply (local_bind varuint32_from_bin); [apply local_vu32|]. intros z.
    apply (local_bind (fun s => sread s z)); [apply local_sread|]. intros b. apply local_ret.
  - apply (local_bind varuint64_from_bin); [apply local_vu64|]. intros z. apply (local_avail z). intros x. apply local_ret.
  - destruct (bitwise_size t) as [w|].
    + apply (local_bind varuint64_from_bin); [apply local_vu64|]. intros z. cbv zeta.
      assert (X : forall ok : bool, local (fun s => let* _ := check_available s ((z * Z.of_nat w) mod 2 ^ 64) in let* _ := check ok E_length_error in
         let* (b, s) := sread s ((z * Z.of_nat w) mod 2 ^ 64) in Ok (VList (cut t w (Z.to_nat z) b), s))).
      { intros [|]; cbn [check bind].
        - apply (local_avail ((z * Z.of_nat w) mod 2 ^ 64)). intros x. apply local_ret.
        - intros s v r H. destruct (check_available _ _); discriminate. }
      apply X.
    + apply (local_bind varuint32_from_bin); [apply local_vu32|]. intros z.
      apply (local_bind (read_list (from_bin_with ref t) (Z.to_nat z))); [apply local_list; auto|]. intros l. apply local_ret.
  - apply (local_bind varuint32_from_bin); [apply local_vu32|]. intros z.
    apply (local_bind (read_list (from_bin_with ref t) (Z.to_nat z))); [apply local_list; auto|]. intros l. apply local_ret.
  - apply (local_bind varuint32_from_bin); [apply local_vu32|]. intros z.
    apply (local_bind (read_list (from_bin_with ref t) (Z.to_nat z))); [apply local_list; auto|]. intros l.
    apply (local_pure (emplace_all id_key l [])). intros x. apply local_ret.
  - apply andb_true_iff in Ht as [Hk Ht]. apply (local_bind varuint32_from_bin); [apply local_vu32|]. intros z.
    apply (local_bind (read_list (fun s => let* (x, s) := from_bin_with ref k s in let* (y, s) := from_bin_with ref t s in Ok (VList [x; y], s)) (Z.to_nat z))).
    + apply local_list. apply (local_bind (from_bin_with ref k)); auto. intros x. apply (local_bind (from_bin_with ref t)); auto. intros y. apply local_ret.
    + intros l. apply (local_pure (emplace_all pair_key l [])). intros x. apply local_ret.
  - apply (local_bind (read_list (from_bin_with ref t) n)); [apply local_list; auto|]. intros l. apply local_ret.
  - apply (local_bind varuint32_from_bin); [apply local_vu32|]. intros z. apply (local_pure (check (z =? Z.of_nat n) E_array_size_mismatch)). intros _.
    destruct (bitwise_size t) as [w|].
    + apply (local_bind (fun s => sread s (z * Z.of_nat w))); [apply local_sread|]. intros b. apply local_ret.
    + apply (local_bind (read_list (from_bin_with ref t) n)); [apply local_list; auto|]. intros l. apply local_ret.
  - apply (local_bind read_u8); [apply local_u8|]. intros b. destruct (b =? 0); [apply local_ret|]. destruct (b =? 1); [|apply local_undef].
    apply (local_bind (from_bin_with ref t)); auto. intros x. apply local_ret.
  - apply (local_bind varuint32_from_bin); [apply local_vu32|]. intros i.
    destruct (nthz (map (from_bin_with ref) ts) i) as [f|] eqn:N; [|apply local_err].
    apply (local_bind f); [|intros x; apply local_ret]. eapply nthz_Forall; [|exact N]. now apply local_map.
  - apply (local_bind (read_tuple (map (from_bin_with ref) ts))); [apply local_tuple; now apply local_map|]. intros l. apply local_ret.
  - discriminate.
  - auto.
  - apply Href.
Qed.

Lemma from_bin_local env : (forall n, no_maybe (env n) = true) -> forall fuel t, no_maybe t = true -> local (from_bin env fuel t).
Proof.
  intros He. induction fuel as [|fuel IH]; intros t Ht; cbn [from_bin]; apply local_with; auto.
  - intros n. apply local_undef.
Qed.
