(** * C04: which types can meet undefined behaviour when they are decoded *)
From Verif Require Import Base Stream StreamFacts TypedBin TypedSpec TypedBinFacts BinLemmas AbiScalarFacts DecodeIntoFacts Prop_Bin.

(** [occurs env t u]: objects of type [t] can have parts of type [u] (also through recursive types). *)
Inductive occurs (env : nat -> ty) : ty -> ty -> Prop :=
| occurs_itself t : occurs env t t
| occurs_inside t p u : In p (match t with
                              | TVec x | TSeq x | TSet x | TArr _ x | TCArr _ x | TOpt x | TMaybe x | TWrap _ x => [x]
                              | TMap k x => [k; x]
                              | TVariant ts | TTuple ts => ts
                              | TRef n => [env n]
                              | _ => []
                              end) -> occurs env p u -> occurs env t u.

Definition can_be_nan (env : nat -> ty) (t : ty) : Prop := exists n, occurs env t (TFloat n).
(** The hazards of decoding, each with what must occur in the type for it: the flag of an optional is read as a bool. *)
Definition hazard_of (env : nat -> ty) (t : ty) (w : string) : Prop :=
  (w = "bool object with a representation other than 0 or 1"%string /\ (occurs env t TBool \/ exists x, occurs env t (TOpt x))) \/
  (w = "NaN in std::set/std::map key"%string /\
   ((exists k, occurs env t (TSet k) /\ can_be_nan env k) \/ (exists k x, occurs env t (TMap k x) /\ can_be_nan env k))) \/
  (w = "stack"%string /\ exists n, occurs env t (TRef n)).

Section Hazard.
Variable env : nat -> ty.
Definition fine (t : ty) (r : res (val * istream)) : Prop :=
  match r with
  | Ok (v, _) => has_nan v = true -> can_be_nan env t
  | Err _ => True
  | Undef w => hazard_of env t w
  end.

Lemma occurs_trans t u x : occurs env t u -> occurs env u x -> occurs env t x.
Proof. induction 1; intros; [assumption|]. eapply occurs_inside; eauto. Qed.
Lemma can_be_nan_up t p : occurs env t p -> can_be_nan env p -> can_be_nan env t.
Proof. intros H (n & N). exists n. eapply occurs_trans; eauto. Qed.
Lemma hazard_up t p w : occurs env t p -> hazard_of env p w -> hazard_of env t w.
Proof.
  intros O [[W [H|(x & H)]]|[[W [(k & H & N)|(k & x & H & N)]]|[W (n & H)]]].
  - left. split; [exact W|]. left. eapply occurs_trans; eauto.
  - left. split; [exact W|]. right. exists x. eapply occurs_trans; eauto.
  - right. left. split; [exact W|]. left. exists k. split; [eapply occurs_trans; eauto|exact N].
  - right. left. split; [exact W|]. right. exists k, x. split; [eapply occurs_trans; eauto|exact N].
  - right. right. split; [exact W|]. exists n. eapply occurs_trans; eauto.
Qed.
Lemma fine_up t p r : occurs env t p -> fine p r -> fine t r.
Proof. intros O. destruct r as [[v s]|e|w]; cbn; [|auto|apply hazard_up; exact O]. intros H N. apply (can_be_nan_up t p O). auto. Qed.


Lemma u8_no_undef s w : read_u8 s <> Undef w. Proof. destruct s; discriminate. Qed.
Lemma vi32_no_undef s w : varint32_from_bin s <> Undef w.
Proof. unfold varint32_from_bin. pose proof (vu32_no_undef s w). destruct (varuint32_from_bin s) as [[v r]|e|u]; cbn [bind]; [destruct (negb _); discriminate|discriminate|congruence]. Qed.
Lemma check_no_undef b e w : check b e <> Undef w. Proof. destruct b; discriminate. Qed.

Definition fine_list (P : Prop) (t : ty) (r : res (list val * istream)) : Prop :=
  match r with
  | Ok (l, _) => existsb has_nan l = true -> P
  | Err _ => True
  | Undef w => hazard_of env t w
  end.
Lemma read_list_fine (P : Prop) t f n : (forall s, match f s with Ok (v, _) => has_nan v = true -> P | Err _ => True | Undef w => hazard_of env t w end) ->
  forall s, fine_list P t (read_list f n s).
Proof.
  intros H. induction n as [|n IH]; intros s; cbn [read_list]; [discriminate|]. specialize (H s). destruct (f s) as [[x s1]|e|w]; cbn [bind]; [|exact Logic.I|exact H].
  specialize (IH s1). destruct (read_list f n s1) as [[l s2]|e|w]; cbn [bind fine_list] in IH |- *; [|exact Logic.I|exact IH].
  cbn [existsb]. intros N. apply orb_true_iff in N. destruct N; auto.
Qed.
Lemma read_tuple_fine (P : Prop) t fs : Forall (fun f => forall s, match f s with Ok (v, _) => has_nan v = true -> P | Err _ => True | Undef w => hazard_of env t w end) fs ->
  forall s, fine_list P t (read_tuple fs s).
Proof.
  induction 1 as [|f fs H _ IH]; intros s; cbn [read_tuple]; [discriminate|]. specialize (H s). destruct (f s) as [[x s1]|e|w]; cbn [bind]; [|exact Logic.I|exact H].
  specialize (IH s1). destruct (read_tuple fs s1) as [[l s2]|e|w]; cbn [bind fine_list] in IH |- *; [|exact Logic.I|exact IH].
  cbn [existsb]. intros N. apply orb_true_iff in N. destruct N; auto.
Qed.
Lemma set_emplace_in key x y l : In y (set_emplace key x l) -> y = x \/ In y l.
Proof.
  induction l as [|z l IH]; cbn [set_emplace]; [intros [->|[]]; auto|]. destruct (vcmp (key x) (key z)); cbn [In]; intros H; [now right| |].
  - destruct H as [<-|H]; auto.
  - destruct H as [<-|H]; auto. destruct (IH H); auto.
Qed.
Lemma emplace_all_fine key l : forall acc,
  match emplace_all key l acc with
  | Ok r => forall y, In y r -> In y l \/ In y acc
  | Err _ => False
  | Undef w => w = "NaN in std::set/std::map key"%string /\ exists x, In x l /\ has_nan (key x) = true
  end.
Proof.
  induction l as [|x l IH]; intros acc; cbn [emplace_all]; [auto|]. destruct (has_nan (key x)) eqn:N; [split; [reflexivity|exists x; split; [now left|exact N]]|].
  specialize (IH (set_emplace key x acc)). destruct (emplace_all key l (set_emplace key x acc)) as [r|e|w]; [|exact IH|].
  - intros y Hy. destruct (IH y Hy) as [H|H]; [left; now right|]. apply set_emplace_in in H. destruct H as [->|H]; [left; now left|now right].
  - destruct IH as [W (y & H & N')]. split; [exact W|]. exists y. split; [now right|exact N'].
Qed.
Lemma raw_nan t b : has_nan (of_raw t b) = true -> exists n, t = TFloat n.
Proof. destruct t as [[] n| |n| | | | | | | | | | | | | | | |]; cbn; try discriminate. eauto. Qed.
Lemma cut_nan t w n : forall b, existsb has_nan (cut t w n b) = true -> exists k, t = TFloat k.
Proof.
  induction n as [|n IH]; intros b; cbn [cut existsb]; [discriminate|]. intros H. apply orb_true_iff in H. destruct H as [H|H]; [exact (raw_nan _ _ H)|eauto].
Qed.

Variable ref : nat -> istream -> res (val * istream).
Hypothesis ref_fine : forall n s, fine (TRef n) (ref n s).

Ltac part := eapply occurs_inside; [|apply occurs_itself]; cbn; tauto.

Lemma list_ok t t' r : occurs env t t' -> fine_list (can_be_nan env t') t' r -> fine t (let* (l, s) := r in Ok (VList l, s)).
Proof.
  intros O H. destruct r as [[l s]|e|w]; cbn [bind fine fine_list] in H |- *; [|exact Logic.I|exact (hazard_up _ _ _ O H)].
  intros N. apply (can_be_nan_up t t' O). apply H. exact N.
Qed.

Lemma with_fine : forall t, ty_ok t = true -> forall s, fine t (from_bin_with ref t s).
Proof.
  induction t as [sg n| |n| | | | |t IH|t IH|t IH|k t IHk IH|n t IH|n t IH|t IH|ts IH|ts IH|t IH|k t IH|n] using ty_ind'; intros Ok0 s.
  - cbn [from_bin_with]. pose proof (sread_no_undef s (Z.of_nat n)) as U. destruct (sread s (Z.of_nat n)) as [[b r]|e|w]; cbn [bind fine]; [|exact Logic.I|now destruct (U w)]. intros N. destruct (raw_nan _ _ N); discriminate.
  - cbn [from_bin_with]. pose proof (u8_no_undef s) as U. destruct (read_u8 s) as [[b r]|e|w]; cbn [bind]; [|exact Logic.I|now destruct (U w)].
    destruct (b =? 0); [discriminate|]. destruct (b =? 1); [discriminate|]. left. split; [reflexivity|]. left. apply occurs_itself.
  - cbn [from_bin_with]. pose proof (sread_no_undef s (Z.of_nat n)) as U. destruct (sread s (Z.of_nat n)) as [[b r]|e|w]; cbn [bind fine]; [|exact Logic.I|now destruct (U w)]. intros _. exists n. apply occurs_itself.
  - cbn [from_bin_with]. pose proof (vu32_no_undef s) as U. destruct (varuint32_from_bin s) as [[b r]|e|w]; cbn [bind fine]; [discriminate|exact Logic.I|now destruct (U w)].
  - cbn [from_bin_with]. pose proof (vi32_no_undef s) as U. destruct (varint32_from_bin s) as [[b r]|e|w]; cbn [bind fine]; [discriminate|exact Logic.I|now destruct (U w)].
  - cbn [from_bin_with]. pose proof (vu32_no_undef s) as U. destruct (varuint32_from_bin s) as [[b r]|e|w]; cbn [bind]; [|exact Logic.I|now destruct (U w)].
    pose proof (sread_no_undef r b) as U2. destruct (sread r b) as [[c r2]|e|w]; cbn [bind fine]; [discriminate|exact Logic.I|now destruct (U2 w)].
  - cbn [from_bin_with]. pose proof (vu64_no_undef s) as U. destruct (varuint64_from_bin s) as [[b r]|e|w]; cbn [bind]; [|exact Logic.I|now destruct (U w)].
    unfold check_available. pose proof (check_no_undef (b <=? Z.of_nat (List.length r)) E_overrun) as U1. destruct (check _ _) as [?|e|w]; cbn [bind]; [|exact Logic.I|now destruct (U1 w)].
    pose proof (sread_no_undef r b) as U2. destruct (sread r b) as [[c r2]|e|w]; cbn [bind fine]; [discriminate|exact Logic.I|now destruct (U2 w)].
  - cbn [from_bin_with]. cbn [ty_ok] in Ok0. specialize (IH Ok0). destruct (bitwise_size t) as [w|].
    + pose proof (vu64_no_undef s) as U. destruct (varuint64_from_bin s) as [[b r]|e|u]; cbn [bind]; [|exact Logic.I|now destruct (U u)].
      unfold check_available. set (c := _ <=? Z.of_nat (List.length r)). pose proof (check_no_undef c E_overrun) as U1. destruct (check c _) as [?|e|u]; cbn [bind]; [|exact Logic.I|now destruct (U1 u)].
      set (c2 := b <=? _). pose proof (check_no_undef c2 E_length_error) as U2. destruct (check c2 _) as [?|e|u]; cbn [bind]; [|exact Logic.I|now destruct (U2 u)].
      set (k := _ mod _). pose proof (sread_no_undef r k) as U3. destruct (sread r k) as [[x r2]|e|u]; cbn [bind fine]; [|exact Logic.I|now destruct (U3 u)].
      cbn [has_nan]. intros N. destruct (cut_nan _ _ _ _ N) as (q & ->). exists q. part.
    + pose proof (vu32_no_undef s) as U. destruct (varuint32_from_bin s) as [[b r]|e|u]; cbn [bind]; [|exact Logic.I|now destruct (U u)].
      eapply (list_ok _ t); [part|]. apply read_list_fine. exact IH.
  - cbn [from_bin_with]. cbn [ty_ok] in Ok0. specialize (IH Ok0). pose proof (vu32_no_undef s) as U. destruct (varuint32_from_bin s) as [[b r]|e|u]; cbn [bind]; [|exact Logic.I|now destruct (U u)].
    eapply (list_ok _ t); [part|]. apply read_list_fine. exact IH.
  - cbn [from_bin_with]. cbn [ty_ok] in Ok0. specialize (IH Ok0). pose proof (vu32_no_undef s) as U. destruct (varuint32_from_bin s) as [[b r]|e|u]; cbn [bind]; [|exact Logic.I|now destruct (U u)].
    pose proof (read_list_fine (can_be_nan env t) t (from_bin_with ref t) (Z.to_nat b) IH r) as R. destruct (read_list _ _ r) as [[l r2]|e|u]; cbn [bind fine_list] in R |- *; [|exact Logic.I|eapply hazard_up; [|exact R]; part].
    pose proof (emplace_all_fine id_key l []) as M. destruct (emplace_all id_key l []) as [l2|e|u]; cbn [bind fine]; [|exact Logic.I|].
    + cbn [has_nan]. intros N. apply existsb_exists in N. destruct N as (y & Hy & N). apply (can_be_nan_up _ t); [part|]. apply R. apply existsb_exists. destruct (M y Hy) as [H|[]]. eauto.
    + destruct M as [-> (x & Hx & N)]. right. left. split; [reflexivity|]. left. exists t. split; [apply occurs_itself|]. apply R. apply existsb_exists. eauto.
  - cbn [from_bin_with]. cbn [ty_ok] in Ok0. apply andb_true_iff in Ok0. destruct Ok0 as [Ok1 Ok2]. specialize (IH Ok2). specialize (IHk Ok1).
    pose proof (vu32_no_undef s) as U. destruct (varuint32_from_bin s) as [[b r]|e|u]; cbn [bind]; [|exact Logic.I|now destruct (U u)]. clear U.
    set (f := fun s0 => _).
    assert (R : forall s, match f s with Ok (v, _) => exists x y, v = VList [x; y] /\ (has_nan x = true -> can_be_nan env k) /\ (has_nan y = true -> can_be_nan env t) | Err _ => True | Undef w => hazard_of env (TMap k t) w end).
    { intros s0. unfold f. specialize (IHk s0). destruct (from_bin_with ref k s0) as [[x s1]|e|w]; cbn [bind fine] in IHk |- *; [|exact Logic.I|eapply hazard_up; [|exact IHk]; part].
      specialize (IH s1). destruct (from_bin_with ref t s1) as [[y s2]|e|w]; cbn [bind fine] in IH |- *; [|exact Logic.I|eapply hazard_up; [|exact IH]; part]. eauto 6. }
    clearbody f.
    assert (L : forall n s, match read_list f n s with Ok (l, _) => Forall (fun v => exists x y, v = VList [x; y] /\ (has_nan x = true -> can_be_nan env k) /\ (has_nan y = true -> can_be_nan env t)) l | Err _ => True | Undef w => hazard_of env (TMap k t) w end).
    { induction n as [|n IHn]; intros s0; cbn [read_list]; [constructor|]. specialize (R s0). destruct (f s0) as [[v s1]|e|w]; cbn [bind]; [|exact Logic.I|exact R].
      specialize (IHn s1). destruct (read_list f n s1) as [[l s2]|e|w]; cbn [bind]; [|exact Logic.I|exact IHn]. constructor; assumption. }
    specialize (L (Z.to_nat b) r). destruct (read_list f (Z.to_nat b) r) as [[l r2]|e|u]; cbn [bind]; [|exact Logic.I|exact L].
    pose proof (emplace_all_fine pair_key l []) as M. destruct (emplace_all pair_key l []) as [l2|e|u]; cbn [bind fine]; [|exact Logic.I|].
    + cbn [has_nan]. intros N. apply existsb_exists in N. destruct N as (y & Hy & N). destruct (M y Hy) as [H|[]]. rewrite Forall_forall in L. destruct (L y H) as (a & c & -> & A & C).
      cbn [has_nan existsb] in N. rewrite orb_false_r in N. apply orb_true_iff in N. destruct N as [N|N]; [apply (can_be_nan_up _ k); [part|auto]|apply (can_be_nan_up _ t); [part|auto]].
    + destruct M as [-> (x & Hx & N)]. right. left. split; [reflexivity|]. right. exists k, t. split; [apply occurs_itself|]. rewrite Forall_forall in L. destruct (L x Hx) as (a & c & -> & A & C). apply A. exact N.
  - cbn [from_bin_with]. cbn [ty_ok] in Ok0. specialize (IH Ok0). eapply (list_ok _ t); [part|]. apply read_list_fine. exact IH.
  - cbn [from_bin_with]. cbn [ty_ok] in Ok0. apply andb_true_iff in Ok0. destruct Ok0 as [_ Ok0]. specialize (IH Ok0). pose proof (vu32_no_undef s) as U. destruct (varuint32_from_bin s) as [[b r]|e|u]; cbn [bind]; [|exact Logic.I|now destruct (U u)].
    pose proof (check_no_undef (b =? Z.of_nat n) E_array_size_mismatch) as U1. destruct (check _ _) as [?|e|u]; cbn [bind]; [|exact Logic.I|now destruct (U1 u)].
    destruct (bitwise_size t) as [w|].
    + set (k := _ * _). pose proof (sread_no_undef r k) as U3. destruct (sread r k) as [[x r2]|e|u]; cbn [bind fine]; [|exact Logic.I|now destruct (U3 u)].
      cbn [has_nan]. intros N. destruct (cut_nan _ _ _ _ N) as (q & ->). exists q. part.
    + eapply (list_ok _ t); [part|]. apply read_list_fine. exact IH.
  - cbn [from_bin_with]. cbn [ty_ok] in Ok0. specialize (IH Ok0). pose proof (u8_no_undef s) as U. destruct (read_u8 s) as [[b r]|e|w]; cbn [bind]; [|exact Logic.I|now destruct (U w)].
    destruct (b =? 0); [discriminate|]. destruct (b =? 1); [|left; split; [reflexivity|]; right; exists t; apply occurs_itself].
    specialize (IH r). destruct (from_bin_with ref t r) as [[x r2]|e|w]; cbn [bind fine] in IH |- *; [|exact Logic.I|eapply hazard_up; [|exact IH]; part].
    cbn [has_nan]. intros N. apply (can_be_nan_up _ t); [part|auto].
  - cbn [from_bin_with]. cbn [ty_ok] in Ok0. rewrite forallb_forall in Ok0. pose proof (vu32_no_undef s) as U. destruct (varuint32_from_bin s) as [[b r]|e|u]; cbn [bind]; [|exact Logic.I|now destruct (U u)].
    destruct (nthz (map (from_bin_with ref) ts) b) as [f|] eqn:Nz; [|exact Logic.I].
    assert (X : exists t, In t ts /\ f = from_bin_with ref t).
    { apply nthz_In' in Nz. apply in_map_iff in Nz. destruct Nz as (t & <- & Hin). eauto. }
    destruct X as (t & Hin & ->). rewrite Forall_forall in IH. specialize (IH t Hin (Ok0 t Hin) r).
    assert (O : occurs env (TVariant ts) t) by (eapply occurs_inside; [cbn; exact Hin|apply occurs_itself]).
    destruct (from_bin_with ref t r) as [[x r2]|e|w]; cbn [bind fine] in IH |- *; [|exact Logic.I|exact (hazard_up _ _ _ O IH)].
    cbn [has_nan]. intros N. exact (can_be_nan_up _ t O (IH N)).
  - cbn [from_bin_with]. cbn [ty_ok] in Ok0. rewrite forallb_forall in Ok0.
    assert (X : Forall (fun f => forall s, match f s with Ok (v, _) => has_nan v = true -> can_be_nan env (TTuple ts) | Err _ => True | Undef w => hazard_of env (TTuple ts) w end) (map (from_bin_with ref) ts)).
    { apply Forall_forall. intros f Hf s0. apply in_map_iff in Hf. destruct Hf as (t & <- & Hin). rewrite Forall_forall in IH.
      assert (O : occurs env (TTuple ts) t) by (eapply occurs_inside; [cbn; exact Hin|apply occurs_itself]). exact (fine_up _ _ _ O (IH t Hin (Ok0 t Hin) s0)). }
    eapply (list_ok _ (TTuple ts)); [apply occurs_itself|]. apply read_tuple_fine. exact X.
  - cbn [from_bin_with]. cbn [ty_ok] in Ok0. apply andb_true_iff in Ok0. destruct Ok0 as [Mk Ok0]. destruct s as [|b s].
    + destruct t; try discriminate Mk; cbn; discriminate.
    + eapply fine_up; [|apply IH; exact Ok0]. part.
  - cbn [from_bin_with]. cbn [ty_ok] in Ok0. eapply fine_up; [|apply IH; exact Ok0]. part.
  - cbn [from_bin_with]. apply ref_fine.
Qed.
End Hazard.

Lemma from_bin_fine env : (forall n, ty_ok (env n) = true) -> forall fuel t, ty_ok t = true -> forall s, fine env t (from_bin env fuel t s).
Proof.
  intros E. induction fuel as [|fuel IH]; intros t T s; cbn [from_bin]; apply with_fine; auto; intros n s0.
  - right. right. split; [reflexivity|]. exists n. apply occurs_itself.
  - eapply fine_up; [|apply IH; apply E]. eapply occurs_inside; [cbn; left; reflexivity|apply occurs_itself].
Qed.

(** Undefined behaviour needs a bool or an optional, a set or map whose keys can be NaN, or recursion. *)
Theorem C04_hazards env fuel t s w : (forall n, ty_ok (env n) = true) -> ty_ok t = true -> from_bin env fuel t s = Undef w -> hazard_of env t w.
Proof. intros E T H. pose proof (from_bin_fine env E fuel t T s) as F. rewrite H in F. exact F. Qed.
Print Assumptions C04_hazards.

(** In particular: a type without these is decoded without undefined behaviour, whatever the bytes. *)
Fixpoint never (bad : ty -> bool) (t : ty) : bool :=
  negb (bad t) && match t with
                  | TVec x | TSeq x | TSet x | TArr _ x | TCArr _ x | TOpt x | TMaybe x | TWrap _ x => never bad x
                  | TMap k x => never bad k && never bad x
                  | TVariant ts | TTuple ts => forallb (never bad) ts
                  | TRef _ => false
                  | _ => true
                  end.
Definition is_float (t : ty) : bool := match t with TFloat _ => true | _ => false end.
Definition is_hazard (t : ty) : bool :=
  match t with
  | TBool | TOpt _ => true
  | TSet k | TMap k _ => negb (never is_float k)
  | _ => false
  end.
Lemma never_occurs env bad t u : occurs env t u -> never bad t = true -> bad u = false /\ never bad u = true.
Proof.
  induction 1 as [t|t p u Hin _ IH]; intros N.
  - split; [|exact N]. destruct t; cbn [never] in N; apply andb_true_iff in N; destruct N as [N _]; destruct (bad _); (reflexivity || discriminate).
  - apply IH. destruct t; cbn [never] in N; apply andb_true_iff in N; destruct N as [_ N]; cbn in Hin; try contradiction; try (destruct Hin as [<-|[]]; exact N).
    + apply andb_true_iff in N. destruct N as [N1 N2]. destruct Hin as [<-|[<-|[]]]; assumption.
    + rewrite forallb_forall in N. auto.
    + rewrite forallb_forall in N. auto.
    + discriminate.
Qed.
Theorem C04_no_hazard env fuel t s w : (forall n, ty_ok (env n) = true) -> ty_ok t = true -> never is_hazard t = true -> from_bin env fuel t s <> Undef w.
Proof.
  intros E T N H. apply C04_hazards in H; [|exact E|exact T].
  assert (Keys : forall k, never is_float k = true -> ~ can_be_nan env k) by (intros k K (n & O); destruct (never_occurs _ _ _ _ O K); discriminate).
  destruct H as [[_ [O|(x & O)]]|[[_ [(k & O & K)|(k & x & O & K)]]|[_ (n & O)]]]; destruct (never_occurs _ _ _ _ O N) as [A B]; try discriminate.
  - cbn in A. apply negb_false_iff in A. exact (Keys k A K).
  - cbn in A. apply negb_false_iff in A. exact (Keys k A K).
Qed.
Print Assumptions C04_no_hazard.

Example ex_no_hazard env fuel s w : (forall n, ty_ok (env n) = true) ->
  from_bin env fuel (TMap TString (TVec (TTuple [TFloat 8; TVaruint32; TVariant [TInt true 8; TStream]]))) s <> Undef w.
Proof. intros E. apply C04_no_hazard; [exact E|reflexivity|reflexivity]. Qed.

(** The hazards are there. *)
Theorem C04_hazards_refuted env fuel :
  from_bin env fuel TBool [2] = Undef "bool object with a representation other than 0 or 1" /\
  from_bin env fuel (TOpt (TInt false 1)) [2; 0] = Undef "bool object with a representation other than 0 or 1" /\
  from_bin env fuel (TSet (TFloat 4)) [1; 0; 0; 192; 127] = Undef "NaN in std::set/std::map key".
Proof. split; [destruct fuel; reflexivity|]. split; [destruct fuel; reflexivity|]. destruct fuel; vm_compute; reflexivity. Qed.
Print Assumptions C04_hazards_refuted.
