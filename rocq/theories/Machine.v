(** * Machine: running a loop until it is finished

    [step s] is one iteration of a C++ loop on the state [s]: [Ok (inl s')] goes on with
    [s'], [Ok (inr r)] leaves the loop with result [r], [Err]/[Undef] leave it by an
    exception or by undefined behaviour. [exec step s r]: the loop started in [s]
    comes to an end, with outcome [r]. No bound on the number of iterations. *)
From Verif Require Import Base.

Section Loop.
  Context {St R : Type}.
  Variable step : St -> res (St + R).

  Inductive exec : St -> res R -> Prop :=
  | exec_done s r : step s = Ok (inr r) -> exec s (Ok r)
  | exec_step s s' r : step s = Ok (inl s') -> exec s' r -> exec s r
  | exec_err s e : step s = Err e -> exec s (Err e)
  | exec_undef s w : step s = Undef w -> exec s (Undef w).

  Inductive star : St -> St -> Prop :=
  | star_refl s : star s s
  | star_step s s1 s2 : step s = Ok (inl s1) -> star s1 s2 -> star s s2.

  Lemma star_trans a b c : star a b -> star b c -> star a c.
  Proof. induction 1; intros; auto. eapply star_step; eauto. Qed.
  Lemma star_one a b : step a = Ok (inl b) -> star a b.
  Proof. intros H. eapply star_step; [exact H|apply star_refl]. Qed.
  Lemma star_exec a b r : star a b -> exec b r -> exec a r.
  Proof. induction 1; intros; auto. eapply exec_step; eauto. Qed.
  Lemma exec_fun s r1 r2 : exec s r1 -> exec s r2 -> r1 = r2.
  Proof.
    intros H. revert r2. induction H as [s r Hs|s s' r Hs _ IH|s e Hs|s w Hs]; intros r2 H2; destruct H2; try congruence.
    apply IH. congruence.
  Qed.
End Loop.

(** A call which may already fail before the loop begins. *)
Definition exec_from {St R} (step : St -> res (St + R)) (start : res St) (r : res R) : Prop :=
  match start with
  | Ok s => exec step s r
  | Err e => r = Err e
  | Undef w => r = Undef w
  end.
Lemma exec_from_fun {St R} (step : St -> res (St + R)) i r1 r2 : exec_from step i r1 -> exec_from step i r2 -> r1 = r2.
Proof. destruct i; cbn; [apply exec_fun|congruence|congruence]. Qed.

(** ** Reasoning about runs (proofs only) *)
Section Reach.
  Context {St R : Type}.
  Variable step : St -> res (St + R).

  (** From the outcome [i] of some first action the loop gets to [x]: a state, an
      exception or undefined behaviour. *)
  Definition reaches (i x : res St) : Prop :=
    match i with
    | Ok s => match x with
              | Ok s' => star step s s'
              | Err e => exec step s (Err e)
              | Undef w => exec step s (Undef w)
              end
    | Err e => x = Err e
    | Undef w => x = Undef w
    end.
  Lemma reaches_refl i : reaches i i.
  Proof. destruct i; cbn; auto. apply star_refl. Qed.
  Lemma reaches_trans i s x : reaches i (Ok s) -> reaches (Ok s) x -> reaches i x.
  Proof.
    destruct i; cbn; try discriminate. intros H1 H2.
    destruct x; [eapply star_trans; eauto| |]; eapply star_exec; eauto.
  Qed.
  Lemma reaches_bind i x f : reaches i x -> (forall s, x = Ok s -> reaches (Ok s) (f s)) ->
    reaches i (let* s := x in f s).
  Proof.
    intros H1 H2. destruct x; cbn [bind]; [|exact H1|exact H1]. eapply reaches_trans; eauto.
  Qed.
  Lemma reaches_step s i x : step s = (let* s' := i in Ok (inl s')) -> reaches i x -> reaches (Ok s) x.
  Proof.
    intros Hs H. destruct i as [s'|e|w]; cbn [bind] in Hs.
    - eapply reaches_trans; [|exact H]. apply star_one. exact Hs.
    - cbn in H. subst x. apply exec_err. exact Hs.
    - cbn in H. subst x. apply exec_undef. exact Hs.
  Qed.
  Lemma reaches_exec i x (fin : St -> res R) :
    reaches i x -> (forall s, x = Ok s -> step s = let* r := fin s in Ok (inr r)) ->
    exec_from step i (let* s := x in fin s).
  Proof.
    intros H F. destruct i as [s|e|w]; cbn in *; [|subst x; reflexivity|subst x; reflexivity].
    destruct x as [s'|e|w]; cbn [bind] in *; [|exact H|exact H].
    eapply star_exec; [exact H|]. specialize (F s' eq_refl). destruct (fin s'); cbn [bind] in F.
    - now apply exec_done.
    - now apply exec_err.
    - now apply exec_undef.
  Qed.
End Reach.
