(** * ValOrder: [vcmp] is a total preorder (proofs only) *)
From Verif Require Import Base TypedBin.

Section ValInd.
  Variable P : val -> Prop.
  Hypothesis HI : forall z, P (VInt z).
  Hypothesis HB : forall b, P (VBool b).
  Hypothesis HF : forall n b, P (VFloat n b).
  Hypothesis HS : forall s, P (VStr s).
  Hypothesis HL : forall l, Forall P l -> P (VList l).
  Hypothesis HN : P (VOpt None).
  Hypothesis HO : forall v, P v -> P (VOpt (Some v)).
  Hypothesis HV : forall i v, P v -> P (VVar i v).
  Fixpoint val_ind' (v : val) : P v :=
    match v with
    | VInt z => HI z
    | VBool b => HB b
    | VFloat n b => HF n b
    | VStr s => HS s
    | VList l => HL l ((fix go l : Forall P l := match l with
                                                 | [] => Forall_nil P
                                                 | x :: l' => Forall_cons x (val_ind' x) (go l')
                                                 end) l)
    | VOpt None => HN
    | VOpt (Some v) => HO v (val_ind' v)
    | VVar i v => HV i v (val_ind' v)
    end.
End ValInd.

Section Lexl.
  Context {A : Type} (cmp : A -> A -> comparison).
Fixpoint lexl (l m : list A) {struct l} : comparison :=
  match l, m with
  | [], [] => Eq
  | [], _ :: _ => Lt
  | _ :: _, [] => Gt
  | p :: l', q :: m' => match cmp p q with Eq => lexl l' m' | c => c end
  end.
End Lexl.
Lemma vcmp_list x y : vcmp (VList x) (VList y) = lexl vcmp x y.
Proof. reflexivity. Qed.
Lemma lexcmp_lexl a b : lexcmp a b = lexl Z.compare a b.
Proof. revert b; induction a; intros [|]; cbn; auto. all: try (rewrite IHa; reflexivity). Qed.

Lemma lexl_antisym {A} (cmp : A -> A -> comparison) l m :
  Forall (fun a => forall b, cmp a b = CompOpp (cmp b a)) l ->
  lexl cmp l m = CompOpp (lexl cmp m l).
Proof.
  intros H. revert m; induction H as [|a l Ha _ IH]; intros [|b m]; cbn; auto.
  rewrite Ha. destruct (cmp b a); cbn; auto.
Qed.
Lemma vcmp_antisym a b : vcmp a b = CompOpp (vcmp b a).
Proof.
  revert b; induction a as [z|x|n x|s|l IH| |v IH|i v IH] using val_ind'; intros b;
    destruct b as [z'|x'|n' x'|s'|l'|[v'|]|i' v']; try reflexivity; cbn [vcmp].
  - apply Z.compare_antisym.
  - apply Z.compare_antisym.
  - rewrite (Nat.compare_antisym n' n). destruct (Nat.compare_spec n' n); cbn; auto.
    subst. apply Z.compare_antisym.
  - rewrite !lexcmp_lexl. apply lexl_antisym. apply Forall_forall. intros. apply Z.compare_antisym.
  - change (lexl vcmp l l' = CompOpp (lexl vcmp l' l)). now apply lexl_antisym.
  - apply IH.
  - rewrite (Z.compare_antisym i' i). destruct (i' ?= i); cbn; auto.
Qed.
Lemma vcmp_refl a : vcmp a a = Eq.
Proof. pose proof (vcmp_antisym a a). destruct (vcmp a a); cbn in *; congruence. Qed.

(** Transitivity package for one left element. *)
Definition tr1 {A} (cmp : A -> A -> comparison) (a : A) : Prop :=
  forall b c, (cmp a b = Eq -> cmp a c = cmp b c) /\
              (cmp a b = Lt -> cmp b c <> Gt -> cmp a c = Lt).
Lemma tr1_Z a : tr1 Z.compare a.
Proof.
  intros b c. split.
  - intros H. apply Z.compare_eq_iff in H. now subst.
  - intros H1 H2. rewrite Z.compare_lt_iff in H1 |- *.
    revert H2. destruct (Z.compare_spec b c); intros H2; try congruence; lia.
Qed.
Lemma lexl_tr {A} (cmp : A -> A -> comparison) l :
  Forall (tr1 cmp) l -> (forall a b, cmp a b = CompOpp (cmp b a)) -> tr1 (lexl cmp) l.
Proof.
  intros H Hanti. induction H as [|a l Ha _ IH]; intros m k.
  - destruct m, k; cbn; split; intros; congruence.
  - destruct m as [|b m]; [cbn; split; intros; congruence|].
    destruct k as [|c k].
    + cbn. split.
      * intros; reflexivity.
      * intros _ Hn. congruence.
    + cbn [lexl]. destruct (Ha b c) as [He Hl]. destruct (IH m k) as [IHe IHl]. split.
      * destruct (cmp a b) eqn:E; try congruence. intros Hm. rewrite (He eq_refl).
        destruct (cmp b c); auto.
      * destruct (cmp a b) eqn:E; try congruence.
        -- rewrite (He eq_refl). destruct (cmp b c); auto. congruence.
        -- intros _ Hn. destruct (cmp b c) eqn:E2.
           ++ rewrite (Hl eq_refl); congruence.
           ++ rewrite (Hl eq_refl); congruence.
           ++ congruence.
Qed.
Ltac cases_bc b c :=
  destruct b as [zb|xb|nb fb|sb|lb|[vb|]|ib vb], c as [zc|xc|nc fc|sc|lc|[vc|]|ic vc];
  try (cbn; split; intros; congruence).
Lemma vcmp_tr a : tr1 vcmp a.
Proof.
  induction a as [z|x|n x|s|l IH| |v IH|i v IH] using val_ind'; intros b c.
  - cases_bc b c. apply tr1_Z.
  - cases_bc b c. apply tr1_Z.
  - cases_bc b c; cbn [vcmp].
    destruct (Nat.compare_spec n nb) as [->|Hnm|Hnm]; split; try congruence.
    + intros E. destruct (Nat.compare_spec nb nc); auto. subst. now apply tr1_Z.
    + destruct (Nat.compare_spec nb nc); auto; try congruence. subst. apply tr1_Z.
    + intros _. destruct (Nat.compare_spec nb nc) as [->|Hmk|Hmk].
      * destruct (Nat.compare_spec n nc); try lia; auto.
      * destruct (Nat.compare_spec n nc); try lia; auto.
      * congruence.
  - cases_bc b c; cbn [vcmp].
    rewrite !lexcmp_lexl. apply lexl_tr; [|intros; apply Z.compare_antisym].
    apply Forall_forall. intros. apply tr1_Z.
  - cases_bc b c.
    rewrite !vcmp_list. apply lexl_tr; auto using vcmp_antisym.
  - cases_bc b c.
  - cases_bc b c; cbn [vcmp]. apply IH.
  - cases_bc b c; cbn [vcmp].
    destruct (Z.compare_spec i ib) as [->|Hi|Hi]; split; try congruence.
    + intros E. destruct (ib ?= ic); auto. now apply IH.
    + destruct (ib ?= ic); auto; try congruence. apply IH.
    + intros _. destruct (Z.compare_spec ib ic) as [->|Hj|Hj].
      * destruct (Z.compare_spec i ic); try lia; auto.
      * destruct (Z.compare_spec i ic); try lia; auto.
      * congruence.
Qed.
Lemma vcmp_lt_trans a b c : vcmp a b = Lt -> vcmp b c = Lt -> vcmp a c = Lt.
Proof. intros H1 H2. destruct (vcmp_tr a b c) as [_ H]. apply H; congruence. Qed.
Lemma vcmp_eq_lt a b c : vcmp a b = Eq -> vcmp b c = Lt -> vcmp a c = Lt.
Proof. intros H1 H2. destruct (vcmp_tr a b c) as [H _]. rewrite H; congruence. Qed.
Lemma vcmp_gt_lt a b : vcmp a b = Gt <-> vcmp b a = Lt.
Proof. rewrite (vcmp_antisym a b). destruct (vcmp b a); cbn; split; congruence. Qed.
