(** * TypedBinFuel: the call depth only matters when it runs out *)
From Verif Require Import Base Stream TypedBin TypedBinFacts TypedBinLocal.

Definition upto {A} (a b : res A) : Prop := a = Undef "stack" \/ a = b.
Definition fupto {A} (f g : bytes -> res (A * bytes)) : Prop := forall s, upto (f s) (g s).
Lemma upto_refl {A} (a : res A) : upto a a. Proof. now right. Qed.
Lemma upto_bind {A B} (a b : res A) (f g : A -> res B) : upto a b -> (forall x, upto (f x) (g x)) -> upto (bind a f) (bind b g).
Proof. intros [-> | ->] H; [now left|]. destruct b as [x|e|w]; cbn [bind]; [apply H|now right|now right]. Qed.
Lemma upto_list f g : fupto f g -> forall n, fupto (read_list f n) (read_list g n).
Proof.
  intros H n. induction n as [|n IH]; intros s; [apply upto_refl|]. cbn [read_list]. apply upto_bind; [apply H|]. intros [x s1].
  apply upto_bind; [apply IH|]. intros [l s2]. apply upto_refl.
Qed.
Lemma upto_tuple fs gs : Forall2 fupto fs gs -> fupto (read_tuple fs) (read_tuple gs).
Proof.
  induction 1 as [|f g fs gs A B IH]; intros s; [apply upto_refl|]. cbn [read_tuple]. apply upto_bind; [apply A|]. intros [x s1].
  apply upto_bind; [apply IH|]. intros [l s2]. apply upto_refl.
Qed.

Lemma upto_with ref ref' : (forall n, fupto (ref n) (ref' n)) -> forall t, fupto (from_bin_with ref t) (from_bin_with ref' t).
Proof.
  intros R t. induction t as
    [sg n| |n| | | | |t IH|t IH|t IH|k t IHk IHt|n t IH|n t IH|t IH|ts IH|ts IH|t IH|k t IH|n] using ty_ind'; intros s; cbn [from_bin_with]; try apply upto_refl.
  - destruct (bitwise_size t); [apply upto_refl|]. apply upto_bind; [apply upto_refl|]. intros [z s1]. apply upto_bind; [now apply upto_list|]. intros [l s2]. apply upto_refl.
  - apply upto_bind; [apply upto_refl|]. intros [z s1]. apply upto_bind; [now apply upto_list|]. intros [l s2]. apply upto_refl.
  - apply upto_bind; [apply upto_refl|]. intros [z s1]. apply upto_bind; [now apply upto_list|]. intros [l s2]. apply upto_refl.
  - apply upto_bind; [apply upto_refl|]. intros [z s1]. apply upto_bind; [|intros [l s2]; apply upto_refl]. apply upto_list. intros s2.
    apply upto_bind; [apply IHk|]. intros [x s3]. apply upto_bind; [apply IHt|]. intros [y s4]. apply upto_refl.
  - apply upto_bind; [now apply upto_list|]. intros [l s2]. apply upto_refl.
  - apply upto_bind; [apply upto_refl|]. intros [z s1]. apply upto_bind; [apply upto_refl|]. intros _. destruct (bitwise_size t); [apply upto_refl|].
    apply upto_bind; [now apply upto_list|]. intros [l s2]. apply upto_refl.
  - apply upto_bind; [apply upto_refl|]. intros [z s1]. destruct (z =? 0); [apply upto_refl|]. destruct (z =? 1); [|apply upto_refl].
    apply upto_bind; [apply IH|]. intros [x s2]. apply upto_refl.
  - apply upto_bind; [apply upto_refl|]. intros [i s1].
    assert (F : Forall2 fupto (map (from_bin_with ref) ts) (map (from_bin_with ref') ts)) by (induction IH; cbn [map]; constructor; auto).
    revert i. induction F as [|f g fs gs A B IHF]; intros i; [apply upto_refl|]. cbn [nthz]. destruct (i =? 0) eqn:Q.
    + assert (i = 0) as -> by lia. apply upto_bind; [apply A|]. intros [x s2]. apply upto_refl.
    + clear - B IHF Q. assert (X : forall i' (i0 : Z), upto match nthz fs i' with Some f0 => let* (x, s2) := f0 s1 in Ok (VVar i0 x, s2) | None => Err E_bad_variant_index end
          match nthz gs i' with Some f0 => let* (x, s2) := f0 s1 in Ok (VVar i0 x, s2) | None => Err E_bad_variant_index end).
      { clear - B. induction B as [|f g fs gs A B IH]; intros i' i0; [apply upto_refl|]. cbn [nthz]. destruct (i' =? 0); [|apply IH].
        apply upto_bind; [apply A|]. intros [x s2]. apply upto_refl. }
      apply X.
  - apply upto_bind; [|intros [l s2]; apply upto_refl]. apply upto_tuple. induction IH; cbn [map]; constructor; auto.
  - destruct s; [apply upto_refl|apply IH].
  - apply IH.
  - apply R.
Qed.
(** A result other than running out of stack is the result at every greater depth. *)
Lemma from_bin_fuel env : forall f1 f2, (f1 <= f2)%nat -> forall t, fupto (from_bin env f1 t) (from_bin env f2 t).
Proof.
  induction f1 as [|f1 IH]; intros f2 L t.
  - rewrite (from_bin_unfold env 0), (from_bin_unfold env f2). apply upto_with. intros n s. now left.
  - destruct f2 as [|f2]; [lia|]. rewrite (from_bin_unfold env (S f1)), (from_bin_unfold env (S f2)). apply upto_with. intros n s. apply (IH f2); lia.
Qed.
