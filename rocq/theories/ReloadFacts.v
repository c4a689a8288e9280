(** * ReloadFacts: loading into an abi which has types (proofs only, for C64) *)
From Verif Require Import Base Abi AbiSpec AbiFacts AbiLoad Prop_Abi AbiStable Reload ReloadSpec.

(** ** The runs are the calls of [convert] *)
Lemma declare_run_spec l : forall m, match declare l m with
  | Ok m' => declare_run l m = (m', Ok tt)
  | Err e => exists m', declare_run l m = (m', Err e)
  | Undef _ => False
  end.
Proof.
  induction l as [|[k d] l IH]; intros m; cbn [declare declare_run]; [reflexivity|].
  destruct (beq k []); cbn [negb check bind]; [eauto|]. destruct (try_emplace k d m) as [m' []]; cbn [check bind]; [apply IH|eauto].
Qed.
Lemma fill_all_run_spec ks : forall m, match fill_all ks m with
  | Ok m' => fill_all_run ks m = (m', Ok tt)
  | Err e => exists m', fill_all_run ks m = (m', Err e)
  | Undef w => exists m', fill_all_run ks m = (m', Undef w)
  end.
Proof. induction ks as [|k ks IH]; intros m; cbn [fill_all fill_all_run]; [reflexivity|]. destruct (fill 32 m k) as [m'|e|w]; cbn [bind]; [apply IH|eauto|eauto]. Qed.
Lemma emplace_initial_nil : emplace_initial [] = initial_types.
Proof. reflexivity. Qed.
Lemma convert_run_fresh a : match convert a with
  | Ok c => convert_run a empty_loaded = (c, Ok tt)
  | Err e => exists c, convert_run a empty_loaded = (c, Err e)
  | Undef w => exists c, convert_run a empty_loaded = (c, Undef w)
  end.
Proof.
  unfold convert, convert_run, empty_loaded. cbn [abi_types action_types table_types]. rewrite emplace_initial_nil. generalize initial_types. intros m0. pose proof (declare_run_spec (declarations a) m0) as D.
  destruct (declare (declarations a) m0) as [m|e|w]; cbn [bind]; [|destruct D as (m' & ->); eauto|contradiction]. rewrite D.
  pose proof (fill_all_run_spec (map fst m) m) as G. destruct (fill_all (map fst m) m) as [m'|e|w]; cbn [bind]; [rewrite G; reflexivity| |]; destruct G as (m' & ->); eauto.
Qed.

(** ** Resolved entries stay *)
Definition kept (m m' : amap) : Prop := forall k d, afind k m = Some d -> is_def d = false -> afind k m' = Some d.
Lemma kept_refl m : kept m m. Proof. intros k d H _. exact H. Qed.
Lemma kept_trans m1 m2 m3 : kept m1 m2 -> kept m2 m3 -> kept m1 m3.
Proof. intros A B k d H N. apply B; [apply A; assumption|exact N]. Qed.
Lemma kept_emplace k d m : kept m (fst (try_emplace k d m)).
Proof. intros x y H N. rewrite afind_try_emplace. destruct (afind k m) eqn:F; [exact H|]. destruct (beq x k) eqn:B; [|exact H]. apply beq_eq in B. subst x. congruence. Qed.
Lemma kept_aset m m' k d x : kept m m' -> afind k m = Some x \/ afind k m' = Some x -> is_def x = true -> kept m (aset k d m').
Proof.
  intros A Hx Dx y z H N. rewrite afind_aset. pose proof (A y z H N) as K. destruct (beq y k) eqn:B; [|destruct (afind k m'); exact K]. apply beq_eq in B. subst y. exfalso.
  pose proof (A k z H N). destruct Hx as [Hx|Hx]; assert (x = z) by congruence; subst; congruence.
Qed.
Lemma deref_some p m d : deref p m = Ok d -> afind p m = Some d.
Proof. unfold deref. destruct (afind p m); congruence. Qed.
Lemma get_type_kept d : forall m t p m', get_type d m t = Ok (p, m') -> kept m m'.
Proof.
  induction d as [|d IH]; intros m t p m' H; [discriminate|]. cbn [get_type] in H. destruct (afind t m) as [x|] eqn:F.
  - destruct x; try (assert (m' = m) by congruence; subst; apply kept_refl).
    apply bind_Ok in H as ([q m1] & G & H). apply bind_Ok in H as (y & _ & H). apply bind_Ok in H as (u & _ & H). assert (m' = aset t (AAlias q) m1) by congruence. subst.
    eapply kept_aset; [eapply IH; exact G|left; exact F|reflexivity].
  - destruct (ends_with t (str "?")); [|destruct (ends_with t (str "[]")); [|destruct (ends_with t (str "$")); [|discriminate H]]];
      apply bind_Ok in H as ([q m1] & G & H); apply bind_Ok in H as (y & _ & H); apply bind_Ok in H as (u & _ & H);
      match type of H with Ok (_, ?z) = _ => assert (m' = z) by congruence; subst m' end; (eapply kept_trans; [eapply IH; exact G|apply kept_emplace]).
Qed.
Lemma get_type_table_kept d : forall m t, kept m (get_type_table d m t).
Proof.
  induction d as [|d IH]; intros m t; [apply kept_refl|].
  pose proof (get_type_kept (S d) m t) as G.
  assert (E : get_type_table (S d) m t = match get_type (S d) m t with Ok (_, m') => m' | _ =>
      match afind t m with
      | None =>
        if ends_with t (str "?") then get_type_table d m (drop_last 1 t)
        else if ends_with t (str "[]") then get_type_table d m (drop_last 2 t)
        else if ends_with t (str "$") then get_type_table d m (drop_last 1 t)
        else m
      | Some (AAliasDef t) => get_type_table d m t
      | Some _ => m
      end end) by reflexivity.
  rewrite E. clear E. destruct (get_type (S d) m t) as [[q m']|e|w]; [eapply G; reflexivity| |];
    (destruct (afind t m) as [[]|]; try apply kept_refl; try apply IH; destruct (ends_with t (str "?")); [apply IH|]; destruct (ends_with t (str "[]")); [apply IH|]; destruct (ends_with t (str "$")); [apply IH|apply kept_refl]).
Qed.
Lemma get_types_kept d l : forall m r m', get_types d l m = Ok (r, m') -> kept m m'.
Proof.
  induction l as [|[n t] l IH]; intros m r m' H; cbn [get_types] in H; [assert (m' = m) by congruence; subst; apply kept_refl|].
  apply bind_Ok in H as ([p m1] & G & H). apply bind_Ok in H as ([r1 m2] & H2 & H). assert (m' = m2) by congruence. subst. eapply kept_trans; [eapply get_type_kept; exact G|eapply IH; exact H2].
Qed.
Lemma get_types_table_kept d l : forall m, kept m (get_types_table d l m).
Proof.
  induction l as [|[n t] l IH]; intros m; cbn [get_types_table]; [apply kept_refl|]. destruct (get_type d m t) as [[p m']|e|w] eqn:G; [|apply get_type_table_kept|apply get_type_table_kept].
  eapply kept_trans; [eapply get_type_kept; exact G|apply IH].
Qed.
Lemma resolve_struct_kept d : forall m s fs m', resolve_struct d m s = Ok (fs, m') -> kept m m'.
Proof.
  induction d as [|d IH]; intros m s fs m' H; [discriminate|]. cbn [resolve_struct] in H. apply bind_Ok in H as ([bf m1] & B & H). apply bind_Ok in H as ([own m2] & G & H). assert (m' = m2) by congruence. subst m2.
  apply get_types_kept in G. eapply kept_trans; [|exact G]. destruct (sd_base s) as [|z b]; [assert (m1 = m) by congruence; subst; apply kept_refl|].
  apply bind_Ok in B as ([base m3] & T & B). apply get_type_kept in T. apply bind_Ok in B as (x & Dx & B). apply bind_Ok in B as (m4 & M & B). apply deref_some in Dx.
  assert (K : kept m m4).
  { destruct x; try (assert (m4 = m3) by congruence; subst; exact T). apply bind_Ok in M as ([fs' m5] & R & M). assert (m4 = aset base (AStruct fs') m5) by congruence. subst.
    apply IH in R. intros y w H1 H2. specialize (T y w H1 H2). refine (kept_aset m3 m5 base _ _ R (or_introl Dx) eq_refl y w T H2). }
  apply bind_Ok in B as (x' & _ & B). destruct x'; try discriminate B. assert (m1 = m4) by congruence. subst. exact K.
Qed.
Lemma resolve_struct_table_kept d : forall m s, kept m (resolve_struct_table d m s).
Proof.
  induction d as [|d IH]; intros m s; [apply kept_refl|]. cbn [resolve_struct_table]. destruct (sd_base s) as [|z b]; [apply get_types_table_kept|].
  destruct (get_type d m (z :: b)) as [[base m1]|e|w] eqn:G; [|apply get_type_table_kept|apply get_type_table_kept]. apply get_type_kept in G.
  destruct (deref base m1) as [x|e|w] eqn:D; [|exact G|exact G]. apply deref_some in D. destruct x; try exact G.
  - destruct (resolve_struct d m1 s0) as [[fs m2]|e|w] eqn:R; [|eapply kept_trans; [exact G|apply IH]|eapply kept_trans; [exact G|apply IH]].
    apply resolve_struct_kept in R. eapply kept_trans; [|apply get_types_table_kept]. eapply kept_trans; [exact G|]. eapply kept_aset; [exact R|left; exact D|reflexivity].
  - eapply kept_trans; [exact G|apply get_types_table_kept].
Qed.
Lemma fill_kept d m k m' : fill d m k = Ok m' -> kept m m'.
Proof.
  intros H. unfold fill in H. apply bind_Ok in H as (x & D & H). apply deref_some in D. destruct x; try (assert (m' = m) by congruence; subst; apply kept_refl).
  - destruct d as [|d]; [discriminate H|]. apply bind_Ok in H as ([p m1] & G & H). apply bind_Ok in H as (y & _ & H). apply bind_Ok in H as (u & _ & H). assert (m' = aset k (AAlias p) m1) by congruence. subst.
    eapply kept_aset; [eapply get_type_kept; exact G|left; exact D|reflexivity].
  - apply bind_Ok in H as ([fs m1] & G & H). assert (m' = aset k (AStruct fs) m1) by congruence. subst. eapply kept_aset; [eapply resolve_struct_kept; exact G|left; exact D|reflexivity].
  - apply bind_Ok in H as ([fs m1] & G & H). assert (m' = aset k (AVariant fs) m1) by congruence. subst. eapply kept_aset; [|left; exact D|reflexivity].
    unfold resolve_variant in G. destruct d; [discriminate G|]. eapply get_types_kept; exact G.
Qed.
Lemma fill_table_kept m k : kept m (fill_table m k).
Proof.
  unfold fill_table. destruct (fill 32 m k) as [m'|e|w] eqn:F; [eapply fill_kept; exact F| |];
    (destruct (deref k m) as [[]| |]; try apply kept_refl; [apply get_type_table_kept|apply resolve_struct_table_kept|apply get_types_table_kept]).
Qed.
Lemma fill_all_run_kept ks : forall m, kept m (fst (fill_all_run ks m)).
Proof.
  induction ks as [|k ks IH]; intros m; cbn [fill_all_run]; [apply kept_refl|]. destruct (fill 32 m k) as [m'|e|w] eqn:F; [|apply fill_table_kept|apply fill_table_kept].
  eapply kept_trans; [eapply fill_kept; exact F|apply IH].
Qed.
Lemma declare_run_kept l : forall m, kept m (fst (declare_run l m)).
Proof.
  induction l as [|[k d] l IH]; intros m; cbn [declare_run]; [apply kept_refl|]. destruct (beq k []); [apply kept_refl|]. pose proof (kept_emplace k d m) as K.
  destruct (try_emplace k d m) as [m' []]; cbn [fst] in K |- *; [eapply kept_trans; [exact K|apply IH]|exact K].
Qed.
Lemma emplace_builtins_kept l : forall m, kept m (emplace_builtins l m).
Proof. induction l as [|b l IH]; intros m; cbn [emplace_builtins]; [apply kept_refl|]. eapply kept_trans; [apply kept_emplace|apply IH]. Qed.
Lemma convert_run_kept a c : kept (abi_types c) (abi_types (fst (convert_run a c))).
Proof.
  assert (K0 : kept (abi_types c) (emplace_initial (abi_types c))) by (unfold emplace_initial; eapply kept_trans; [apply emplace_builtins_kept|apply kept_emplace]).
  unfold convert_run. generalize dependent (emplace_initial (abi_types c)). intros m0 K0. pose proof (declare_run_kept (declarations a) m0) as K1.
  destruct (declare_run (declarations a) m0) as [m1 [u|e|w]]; cbn [fst abi_types] in *; [|eapply kept_trans; eauto|eapply kept_trans; eauto].
  pose proof (fill_all_run_kept (map fst m1) m1) as K2. destruct (fill_all_run (map fst m1) m1) as [m2 r]. cbn [fst abi_types] in *. eapply kept_trans; [exact K0|]. eapply kept_trans; eauto.
Qed.

(** ** What the definitions say together *)
Lemma declares_merge a b n d : declares (merge a b) n d <-> declares a n d \/ declares b n d.
Proof.
  split.
  - intros H. inversion H; subst; cbn [merge ad_types ad_structs ad_variants] in *; try (left; constructor; assumption); match goal with X : In _ (_ ++ _) |- _ => apply in_app_or in X as [X|X]; [left|right]; constructor; exact X end.
  - intros [H|H]; inversion H; subst; constructor; cbn [merge ad_types ad_structs ad_variants]; try assumption; apply in_or_app; auto.
Qed.
Lemma declared_merge a b n : declared (merge a b) n <-> declared a n \/ declared b n.
Proof. unfold declared. split; [intros (d & H); apply declares_merge in H as [H|H]; eauto|intros [(d & H)|(d & H)]; exists d; apply declares_merge; auto]. Qed.
(** The names a definition brings. *)
Lemma declares_own b n d : declares b n d -> (forall a, declares a n d) \/ In n (map fst (declarations b)).
Proof.
  intros H. rewrite declarations_names. destruct H as [s0 Hs| |t Ht|s Hs|v Hv]; [left; intros a; now apply declares_builtin|left; intros a; apply declares_extended_asset|..]; right; rewrite !in_app_iff; [left|right; left|right; right]; now apply in_map.
Qed.
Definition fresh (b : abi_def) (m : amap) : Prop := forall n, In n (map fst (declarations b)) -> afind n m = None.

Section Merge.
  Context (a b : abi_def) (m : amap).
  Hypothesis F : functional a.
  Hypothesis Ia : inv a m.
  Hypothesis Fr : fresh b m.

  Lemma not_declared n : present m n -> ~ declared a n -> ~ declared (merge a b) n.
  Proof.
    intros P N D. apply declared_merge in D as [D|(d & D)]; [contradiction|]. apply declares_own in D as [D|D]; [apply N; exists d; apply D|]. exact (P (Fr n D)).
  Qed.
  Lemma text_mono (f : abi_def -> bytes -> Prop) p : (forall x t, f x t -> ~ declared x t) -> (forall x y t, f x t -> ~ declared y t -> f y t) -> ~ f a p -> ~ f (merge a b) p.
  Proof. intros A B N H. apply N. apply (B (merge a b)); [exact H|]. intros D. apply (A _ _ H). apply declared_merge. now left. Qed.
  Lemma ext_text_mono p : ~ extension_text a p -> ~ extension_text (merge a b) p.
  Proof. apply text_mono; [intros x t [H _]; exact H|intros x y t [_ H] N; split; assumption]. Qed.
  Lemma plain_mono p : plain_text a p -> plain_text (merge a b) p.
  Proof.
    intros (A & B & C). split; [|split]; [revert A|revert B|now apply ext_text_mono]; apply text_mono; try (intros x t [H _]; exact H); intros x y t [_ H] N; split; assumption.
  Qed.
  Lemma suffix_entry t (s : bytes) d : afind t m = Some d -> ~ declared a t -> (t = s ++ str "?" -> exists q, d = AOptional q) /\ (t = s ++ str "[]" -> exists q, d = AArray q) /\ (t = s ++ str "$" -> exists q, d = AExtension q).
  Proof.
    intros H N. pose proof Ia as I. split; [|split]; intros ->.
    - eapply shape_opt; eauto. split; eauto.
    - eapply shape_arr; eauto. split; eauto.
    - eapply shape_ext; eauto. split; eauto.
  Qed.
  Lemma refers_weak n t p : refers_to a n t p -> present m p -> refers_to (merge a b) n t p.
  Proof.
    induction 1 as [n t d D N|n t s p D R IH X|n t p N R IH X|n t p N R IH X|n t p N R IH X]; intros P.
    - eapply refers_declared; [apply declares_merge; left; exact D|exact N].
    - eapply refers_alias; [apply declares_merge; left; exact D|auto|now apply ext_text_mono].
    - unfold present in P. destruct (afind (t ++ str "?") m) as [d|] eqn:E; [|congruence]. destruct (suffix_entry _ t d E N) as (S1 & _). destruct (S1 eq_refl) as (q & ->).
      destruct (inv_data _ _ Ia _ _ E) as [(s & Es & _ & (k & Dk) & _) Pq]. apply app_inv_tail in Es. subst s. cbn [pointers] in Pq. inversion Pq as [|? ? Pe _]; subst.
      assert (p = q) by (eapply denotes_fun; eauto). subst q.
      eapply refers_optional; [apply not_declared; [unfold present; congruence|exact N]|apply IH; exact Pe|now apply plain_mono].
    - unfold present in P. destruct (afind (t ++ str "[]") m) as [d|] eqn:E; [|congruence]. destruct (suffix_entry _ t d E N) as (_ & S1 & _). destruct (S1 eq_refl) as (q & ->).
      destruct (inv_data _ _ Ia _ _ E) as [(s & Es & _ & (k & Dk) & _) Pq]. apply app_inv_tail in Es. subst s. cbn [pointers] in Pq. inversion Pq as [|? ? Pe _]; subst.
      assert (p = q) by (eapply denotes_fun; eauto). subst q.
      eapply refers_array; [apply not_declared; [unfold present; congruence|exact N]|apply IH; exact Pe|now apply plain_mono].
    - unfold present in P. destruct (afind (t ++ str "$") m) as [d|] eqn:E; [|congruence]. destruct (suffix_entry _ t d E N) as (_ & _ & S1). destruct (S1 eq_refl) as (q & ->).
      destruct (inv_data _ _ Ia _ _ E) as [(s & Es & _ & (k & Dk) & _) Pq]. apply app_inv_tail in Es. subst s. cbn [pointers] in Pq. inversion Pq as [|? ? Pe _]; subst.
      assert (p = q) by (eapply denotes_fun; eauto). subst q.
      eapply refers_extension; [apply not_declared; [unfold present; congruence|exact N]|apply IH; exact Pe|now apply ext_text_mono].
  Qed.
  Lemma members_weak n ms fs : members_refer a n ms fs -> Forall (present m) (map snd fs) -> members_refer (merge a b) n ms fs.
  Proof.
    unfold members_refer. induction 1 as [|x y ms fs [E R] M IH]; intros P; constructor; cbn [map] in P; inversion P; subst; [split; [exact E|now apply refers_weak]|auto].
  Qed.
  Lemma struct_fields_weak n t fs : struct_fields a n t fs -> Forall (present m) (map snd fs) -> struct_fields (merge a b) n t fs.
  Proof.
    induction 1 as [n name fields own D M|n name base fields bs inherited own Nb D R S IH M]; intros P.
    - eapply fields_root; [apply declares_merge; left; exact D|now apply members_weak].
    - rewrite map_app in P. apply Forall_app in P as [P1 P2]. eapply fields_derived; [exact Nb|apply declares_merge; left; exact D|apply refers_weak; [exact R|]|apply IH; exact P1|now apply members_weak].
      apply (inv_decl _ _ Ia). inversion S; subst; eexists; eassumption.
  Qed.
  Lemma described_weak n d : afind n m = Some d -> raw_or_described (merge a b) n d.
  Proof.
    intros H. destruct (inv_data _ _ Ia _ _ H) as [D P].
    assert (Pn : present m n) by (unfold present; congruence).
    destruct d; cbn [raw_or_described described pointers] in *; try (apply declares_merge; now left).
    - destruct D as [-> D]. split; [reflexivity|]. apply declares_merge. now left.
    - destruct D as (s & D & (k & R) & X). exists s. split; [apply declares_merge; now left|]. split; [exists k; apply refers_weak; [exact R|now inversion P]|now apply ext_text_mono].
    - destruct D as (s & -> & D & (k & R) & X). exists s. split; [reflexivity|]. split; [now apply not_declared|]. split; [exists k; apply refers_weak; [exact R|now inversion P]|now apply plain_mono].
    - destruct D as (s & -> & D & (k & R) & X). exists s. split; [reflexivity|]. split; [now apply not_declared|]. split; [exists k; apply refers_weak; [exact R|now inversion P]|now apply ext_text_mono].
    - destruct D as (s & -> & D & (k & R) & X). exists s. split; [reflexivity|]. split; [now apply not_declared|]. split; [exists k; apply refers_weak; [exact R|now inversion P]|now apply plain_mono].
    - destruct D as (k & S). exists k. now apply struct_fields_weak.
    - destruct D as (ts & k & D & M). exists ts, k. split; [apply declares_merge; now left|now apply members_weak].
  Qed.
  Lemma merge_functional : NoDup (map fst (declarations b)) -> functional (merge a b).
  Proof.
    intros ND n d d' H H'. apply declares_merge in H. apply declares_merge in H'.
    assert (X : forall e, declares b n e -> declares a n e \/ In n (map fst (declarations b))) by (intros e D; apply declares_own in D as [D|D]; [left; apply D|right; exact D]).
    assert (Y : forall e, declares a n e -> ~ In n (map fst (declarations b))) by (intros e D K; apply Fr in K; apply (inv_decl _ _ Ia n); [exists e; exact D|exact K]).
    destruct H as [H|H]; [|apply X in H as H1; destruct H1 as [H1|H1]]; (destruct H' as [H'|H']; [|apply X in H' as H2; destruct H2 as [H2|H2]]); try (eapply F; eassumption); try (exfalso; eapply Y; eassumption).
    clear X Y H1. assert (Z : forall e, declares b n e -> exists x, In (n, x) (declarations b) /\ e = match x with AAliasDef t => DAlias t | AStructDef s => DStruct (sd_base s) (map (fun f => (fd_name f, fd_type f)) (sd_fields s)) | AVariantDef v => DVariant (vd_types v) | _ => DBuiltin end).
    { intros e D. assert (Bn : forall e', declares a n e' -> False) by (intros e' D'; apply (inv_decl _ _ Ia n); [exists e'; exact D'|now apply Fr]).
      destruct D as [s0 Hs| |t Ht|s Hs|v Hv]; [exfalso; exact (Bn _ (declares_builtin a _ Hs))|exfalso; exact (Bn _ (declares_extended_asset a))|..]; unfold declarations.
      - exists (AAliasDef (td_type t)). split; [|reflexivity]. apply in_or_app. left. apply in_map_iff. exists t. auto.
      - exists (AStructDef s). split; [|reflexivity]. apply in_or_app. right. apply in_or_app. left. apply in_map_iff. exists s. auto.
      - exists (AVariantDef v). split; [|reflexivity]. apply in_or_app. right. apply in_or_app. right. apply in_map_iff. exists v. auto. }
    destruct (Z d H) as (x & I1 & ->). destruct (Z d' H') as (y & I2 & ->).
    assert (Q : (n, x) = (n, y)) by (eapply (in_app_NoDup_map fst); eauto). assert (x = y) by congruence. now subst.
  Qed.
  Lemma merge_inv m' : declare (declarations b) m = Ok m' -> inv (merge a b) m'.
  Proof.
    intros H. pose proof (declare_spec (declarations b) m) as S. rewrite H in S. destruct S as (_ & _ & _ & Iff).
    assert (P : forall n, present m n -> present m' n) by (intros n Hn; unfold present in *; destruct (afind n m) as [d|] eqn:E; [|congruence]; rewrite (proj2 (Iff n d)); [discriminate|auto]).
    constructor.
    - intros n D. apply declared_merge in D as [D|(d & D)]; [apply P, (inv_decl _ _ Ia), D|]. apply declares_own in D as [D|D]; [apply P, (inv_decl _ _ Ia); exists d; apply D|].
      apply in_map_iff in D as ([n' x] & En & D). cbn [fst] in En. subst n'. unfold present. rewrite (proj2 (Iff n x)); [discriminate|auto].
    - intros n d Hf. apply Iff in Hf as [Hf|Hf].
      + unfold declarations in Hf. rewrite !in_app_iff, !in_map_iff in Hf. destruct Hf as [(t & E & It)|[(t & E & It)|(t & E & It)]]; inversion E; subst; (split; [|constructor]); cbn [raw_or_described]; apply declares_merge; right; now constructor.
      + split; [now apply described_weak|]. eapply Forall_impl; [|exact (proj2 (inv_data _ _ Ia _ _ Hf))]. exact P.
  Qed.
End Merge.

(** ** The tables of failing steps *)
Lemma get_type_table_inv a d : forall m t, inv a m -> inv a (get_type_table d m t).
Proof.
  induction d as [|d IH]; intros m t I0; [exact I0|]. pose proof (get_type_good a (S d) m t I0) as G.
  assert (E : get_type_table (S d) m t = match get_type (S d) m t with Ok (_, m') => m' | _ =>
      match afind t m with
      | None =>
        if ends_with t (str "?") then get_type_table d m (drop_last 1 t)
        else if ends_with t (str "[]") then get_type_table d m (drop_last 2 t)
        else if ends_with t (str "$") then get_type_table d m (drop_last 1 t)
        else m
      | Some (AAliasDef t) => get_type_table d m t
      | Some _ => m
      end end) by reflexivity.
  rewrite E. clear E. destruct (get_type (S d) m t) as [[q m']|e|w]; [apply G| |];
      (destruct (afind t m) as [[]|]; auto; repeat match goal with |- context [if ?b then _ else _] => destruct b end; auto).
Qed.
Lemma get_types_table_inv a d l : forall m, inv a m -> inv a (get_types_table d l m).
Proof.
  induction l as [|[n t] l IH]; intros m I0; cbn [get_types_table]; [exact I0|]. pose proof (get_type_good a d m t I0) as G.
  destruct (get_type d m t) as [[p m']|e|w]; [apply IH, G|now apply get_type_table_inv|now apply get_type_table_inv].
Qed.
Lemma resolve_struct_table_inv a d : forall m s, inv a m -> inv a (resolve_struct_table d m s).
Proof.
  induction d as [|d IH]; intros m s I0; [exact I0|]. cbn [resolve_struct_table]. destruct (sd_base s) as [|z b]; [now apply get_types_table_inv|].
  pose proof (get_type_good a d m (z :: b) I0) as G. destruct (get_type d m (z :: b)) as [[base m1]|e|w]; [|now apply get_type_table_inv|now apply get_type_table_inv].
  destruct G as (I1 & _ & _ & P1). destruct (deref base m1) as [x|e|w] eqn:D; [|exact I1|exact I1]. apply deref_some in D. destruct x; try exact I1; [|now apply get_types_table_inv].
  pose proof (inv_data _ _ I1 _ _ D) as [R _]. cbn [raw_or_described] in R. pose proof (resolve_struct_good a d m1 s0 base I1 R) as GS.
  destruct (resolve_struct d m1 s0) as [[fs m2]|e|w]; [|now apply IH|now apply IH]. destruct GS as (I2 & E2 & (k & SF) & P2). apply get_types_table_inv.
  apply inv_aset; [exact I2|exists k; exact SF|exact P2].
Qed.
Lemma fill_table_inv a m k : inv a m -> present m k -> inv a (fill_table m k).
Proof.
  intros I0 P. unfold fill_table. pose proof (proj1 (fill_good a m k I0 P)) as G. destruct (fill 32 m k) as [m'|e|w]; [apply G| |];
    (destruct (deref k m) as [[]| |]; try exact I0; [now apply get_type_table_inv|now apply resolve_struct_table_inv|now apply get_types_table_inv]).
Qed.
Lemma fill_all_run_inv a ks : forall m, inv a m -> Forall (present m) ks -> inv a (fst (fill_all_run ks m)).
Proof.
  induction ks as [|k ks IH]; intros m I0 P; cbn [fill_all_run]; [exact I0|]. inversion P as [|? ? P1 P2]; subst. pose proof (proj1 (fill_good a m k I0 P1)) as G.
  destruct (fill 32 m k) as [m'|e|w] eqn:E; [|now apply fill_table_inv|now apply fill_table_inv]. destruct G as [I1 E1]. apply IH; [exact I1|]. eapply Forall_impl; [|exact P2]. apply E1.
Qed.

(** ** The built-in types are there after the first load *)
Lemma try_emplace_present k d m : present m k -> fst (try_emplace k d m) = m.
Proof. unfold present, try_emplace. destruct (afind k m); [reflexivity|congruence]. Qed.
Lemma emplace_builtins_present l : forall m, (forall b, In b l -> present m (builtin_name b)) -> emplace_builtins l m = m.
Proof. induction l as [|b l IH]; intros m H; cbn [emplace_builtins]; [reflexivity|]. rewrite try_emplace_present; [apply IH; intros x Hx; apply H; now right|apply H; now left]. Qed.
Lemma emplace_initial_present a m : inv a m -> emplace_initial m = m.
Proof.
  intros I0. unfold emplace_initial. rewrite emplace_builtins_present; [apply try_emplace_present, (inv_decl _ _ I0); eexists; apply declares_extended_asset|].
  intros b _. apply (inv_decl _ _ I0). exists DBuiltin. apply builtin_declared.
Qed.
Definition nothing (v : bytes) : abi_def := AbiDef v [] [] [] [] [] [] [] [].
Lemma initial_inv v : inv (nothing v) initial_types.
Proof. apply declared_inv. reflexivity. Qed.
Lemma emplace_initial_twice m : m = [] \/ emplace_initial m = m -> emplace_initial (emplace_initial m) = emplace_initial m.
Proof. intros [-> | H]; [|now rewrite !H]. rewrite emplace_initial_nil. apply (emplace_initial_present (nothing [])), initial_inv. Qed.
Lemma nothing_functional v : functional (nothing v).
Proof. apply names_functional. exact (proj1 builtin_names_facts). Qed.

(** ** How many names are taken *)
Definition clear_names (m : amap) (ns : list bytes) : Prop := Forall (fun n => n <> [] /\ afind n m = None) ns /\ NoDup ns.
Lemma clear_prefix m ns j k : (j <= k)%nat -> clear_names m (firstn k ns) -> clear_names m (firstn j ns).
Proof.
  intros L [F N]. assert (E : firstn k ns = firstn j ns ++ firstn (k - j) (skipn j ns)).
  { clear - L. revert k ns L. induction j as [|j IH]; intros k ns L; [cbn; now rewrite Nat.sub_0_r|]. destruct k as [|k]; [lia|]. destruct ns as [|x ns]; [destruct (S k - S j)%nat; reflexivity|]. cbn [firstn skipn app]. f_equal. rewrite Nat.sub_succ. apply IH. lia. }
  rewrite E in F, N. apply Forall_app in F as [F _]. apply NoDup_app in N as (N & _). split; assumption.
Qed.
Lemma declare_clear l m : (exists m', declare l m = Ok m') <-> clear_names m (map fst l).
Proof.
  pose proof (declare_spec l m) as S. unfold clear_names. split.
  - intros (m' & E). rewrite E in S. destruct S as (A & B & C & _). split; [|exact B]. apply Forall_forall. intros n Hn. apply in_map_iff in Hn as (x & <- & Hx). rewrite Forall_forall in A, C. auto.
  - intros [F N]. rewrite Forall_forall in F. destruct (declare l m) as [m'|e|w]; [eauto| |contradiction]. exfalso. destruct S as [[_ H]|[_ H]]; [now apply (proj1 (F [] H))|]. apply H. split; [exact N|]. apply Forall_forall. intros x Hx. apply F. now apply in_map.
Qed.
Lemma declare_run_prefix l : forall m, exists k, (k <= List.length l)%nat /\ declare (firstn k l) m = Ok (fst (declare_run l m)) /\
  match snd (declare_run l m) with
  | Ok _ => k = List.length l
  | Err e => In e load_errors /\ (k < List.length l)%nat /\ (forall m', declare (firstn (S k) l) m <> Ok m')
  | Undef _ => False
  end.
Proof.
  induction l as [|[x d] l IH]; intros m; cbn [declare_run].
  - exists 0%nat. cbn. auto.
  - destruct (beq x []) eqn:B.
    + exists 0%nat. cbn [firstn declare fst snd]. split; [lia|]. split; [reflexivity|]. split; [in_errors|]. split; [cbn; lia|]. intros m'. rewrite B. cbn. discriminate.
    + destruct (try_emplace x d m) as [m1 []] eqn:T; cbn [fst snd].
      * destruct (IH m1) as (k & L & D & R). exists (S k). cbn [firstn declare]. rewrite B, T. cbn [negb check bind]. split; [cbn; lia|]. split; [exact D|].
        destruct (snd (declare_run l m1)) as [u|e|w]; [cbn; lia| |exact R]. destruct R as (R1 & R2 & R3). split; [exact R1|]. split; [cbn; lia|]. exact R3.
      * exists 0%nat. cbn [firstn declare]. split; [cbn; lia|]. split; [unfold try_emplace in T; destruct (afind x m); congruence|]. split; [in_errors|]. split; [cbn; lia|]. intros m'. rewrite B, T. cbn. discriminate.
Qed.
Lemma first_declarations_spec k b : declarations (first_declarations k b) = firstn k (declarations b).
Proof.
  unfold declarations, first_declarations. cbn [ad_types ad_structs ad_variants]. rewrite !firstn_app, !firstn_map, !map_length. now rewrite Nat.sub_add_distr || reflexivity.
Qed.
Lemma first_declarations_all b : first_declarations (List.length (own_names b)) b = b.
Proof.
  destruct b. unfold first_declarations, own_names. cbn [Abi.ad_types Abi.ad_structs Abi.ad_variants Abi.ad_version Abi.ad_actions Abi.ad_tables Abi.ad_clauses Abi.ad_errors Abi.ad_extensions].
  rewrite !app_length, !map_length. rewrite !firstn_all2 by lia. reflexivity.
Qed.
Lemma own_names_spec b : own_names b = map fst (declarations b).
Proof. now rewrite declarations_names. Qed.
Definition usable (c : abi) (m : amap) : Prop := forall n, afind n m = None <-> ~ In n (str "extended_asset" :: map str builtin_type_names) /\ afind n (abi_types c) = None.
Lemma new_clear c m ns : usable c m -> new_names c ns <-> clear_names m ns.
Proof. intros U. unfold new_names, clear_names. apply and_iff_compat_r. rewrite !Forall_forall. split; intros H n Hn; specialize (H n Hn); [rewrite (U n)|rewrite (U n) in H]; tauto. Qed.
Lemma usable_empty : usable empty_loaded initial_types.
Proof.
  intros n. cbn [empty_loaded abi_types afind]. split.
  - intros H. split; [|reflexivity]. intros K. pose proof initial_present as P. rewrite Forall_forall in P. exact (P n K H).
  - intros [H _]. destruct (afind n initial_types) eqn:E; [|reflexivity]. exfalso. apply H. assert (P : present initial_types n) by (unfold present; congruence). apply initial_keys in P. apply in_app_or in P as [P|[P|[]]]; [now right|now left].
Qed.
Lemma usable_inv a c : inv a (abi_types c) -> usable c (abi_types c).
Proof.
  intros I0 n. split; [|tauto]. intros H. split; [|exact H]. intros K. assert (P : present (abi_types c) n); [|exact (P H)]. apply (inv_decl _ _ I0). destruct K as [<-|K]; [eexists; apply declares_extended_asset|].
  apply in_map_iff in K as (x & <- & K). eexists. apply declares_builtin. exact K.
Qed.
Lemma takes_unique c b k j : takes c b k -> takes c b j -> k = j.
Proof.
  assert (W : forall i l, (l <= i)%nat -> new_names c (firstn i (own_names b)) -> new_names c (firstn l (own_names b))).
  { intros i l L [F N]. assert (U : usable c (emplace_initial (abi_types c)) -> True) by auto. clear U. revert F N.
    assert (E : firstn i (own_names b) = firstn l (own_names b) ++ firstn (i - l) (skipn l (own_names b))).
    { clear - L. generalize (own_names b). revert i L. induction l as [|l IH]; intros i L ns; [cbn; now rewrite Nat.sub_0_r|]. destruct i as [|i]; [lia|]. destruct ns as [|x ns]; [destruct (S i - S l)%nat; reflexivity|]. cbn [firstn skipn app]. f_equal. rewrite Nat.sub_succ. apply IH. lia. }
    rewrite E. intros F N. apply Forall_app in F as [F _]. apply NoDup_app in N as (N & _). split; assumption. }
  intros (A1 & A2 & A3) (B1 & B2 & B3). destruct (Nat.lt_trichotomy k j) as [L|[L|L]]; [|exact L|]; exfalso.
  - apply A3; [lia|]. exact (W j (S k) L B2).
  - apply B3; [lia|]. exact (W k (S j) L A2).
Qed.
Lemma takes_run c m b k : usable c m -> takes c b k -> declare (declarations (first_declarations k b)) m = Ok (fst (declare_run (declarations b) m)) /\
  match snd (declare_run (declarations b) m) with
  | Ok _ => k = List.length (own_names b)
  | Err e => In e load_errors /\ (k < List.length (own_names b))%nat
  | Undef _ => False
  end.
Proof.
  intros U T. destruct (declare_run_prefix (declarations b) m) as (j & L & D & R). assert (Len : List.length (own_names b) = List.length (declarations b)) by (rewrite own_names_spec; apply map_length).
  assert (Tj : takes c b j).
  { split; [now rewrite Len|]. split.
    - apply (new_clear c m _ U). rewrite own_names_spec, firstn_map. apply declare_clear. eauto.
    - intros Lt N. apply (new_clear c m _ U) in N. rewrite own_names_spec, firstn_map in N. apply declare_clear in N as (m' & N). destruct (snd (declare_run (declarations b) m)) as [u|e|w]; [lia| |exact R]. exact (proj2 (proj2 R) m' N). }
  pose proof (takes_unique c b k j T Tj). subst j. rewrite first_declarations_spec. split; [exact D|]. rewrite Len. destruct (snd (declare_run (declarations b) m)); [exact R|tauto|exact R].
Qed.
Lemma takes_exists c m b : usable c m -> exists k, takes c b k.
Proof.
  intros U. destruct (declare_run_prefix (declarations b) m) as (j & L & D & R). assert (Len : List.length (own_names b) = List.length (declarations b)) by (rewrite own_names_spec; apply map_length).
  exists j. split; [now rewrite Len|]. split.
  - apply (new_clear c m _ U). rewrite own_names_spec, firstn_map. apply declare_clear. eauto.
  - intros Lt N. apply (new_clear c m _ U) in N. rewrite own_names_spec, firstn_map in N. apply declare_clear in N as (m' & N). destruct (snd (declare_run (declarations b) m)) as [u|e|w]; [lia| |exact R]. exact (proj2 (proj2 R) m' N).
Qed.

(** ** One load *)
Lemma load_step a c b k c' r : inv a (emplace_initial (abi_types c)) -> functional a -> usable c (emplace_initial (abi_types c)) -> convert_run b c = (c', r) -> takes c b k ->
  functional (merge a (first_declarations k b)) /\ inv (merge a (first_declarations k b)) (abi_types c') /\
  match r with
  | Ok _ => k = List.length (own_names b) /\ faithful (merge a (first_declarations k b)) (abi_types c')
  | Err e => In e load_errors
  | Undef _ => False
  end /\
  (k = List.length (own_names b) -> well_formed (merge a b) 32 -> r = Ok tt).
Proof.
  unfold convert_run. generalize (emplace_initial (abi_types c)) as m. intros m I0 F U H T. destruct (takes_run c m b k U T) as [D R].
  assert (Cl : clear_names m (map fst (declarations (first_declarations k b)))) by (apply declare_clear; eauto). destruct Cl as [Cf Cn].
  assert (Fr : fresh (first_declarations k b) m) by (intros n Hn; rewrite Forall_forall in Cf; exact (proj2 (Cf n Hn))).
  pose proof (merge_functional a _ m F I0 Fr Cn) as F2. pose proof (merge_inv a _ m F I0 Fr _ D) as I2.
  destruct (declare_run (declarations b) m) as [m1 r1]. cbn [fst snd] in *. split; [exact F2|].
  destruct r1 as [u|e|w]; [| |contradiction].
  - pose proof (keys_present m1) as K. pose proof (fill_all_run_inv _ _ m1 I2 K) as I3. destruct (fill_all_good _ (map fst m1) m1 I2 K) as [G N]. pose proof (fill_all_run_spec (map fst m1) m1) as S.
    assert (E : r = snd (fill_all_run (map fst m1) m1) /\ abi_types c' = fst (fill_all_run (map fst m1) m1)) by (destruct (fill_all_run (map fst m1) m1); inversion H; auto). destruct E as [-> E]. rewrite E. split; [exact I3|].
    assert (WF : k = List.length (own_names b) -> well_formed (merge a b) 32 -> snd (fill_all_run (map fst m1) m1) = Ok tt).
    { intros Ek W. rewrite Ek, first_declarations_all in F2, I2. destruct (fill_all_ok _ (map fst m1) F2 W m1 I2 K) as (m' & Em). rewrite Em in S. now rewrite S. }
    split; [|exact WF]. destruct (fill_all (map fst m1) m1) as [m'|e|w] eqn:FA; [| |contradiction].
    + rewrite S. cbn [fst snd]. split; [exact R|]. destruct G as [G1 G2]. apply inv_faithful; [exact F2|exact G1|]. intros n Un. eapply N; [reflexivity| |exact Un]. apply G2 in Un. destruct Un as (d & Hd & _). apply afind_In in Hd. exact (in_map fst _ _ Hd).
    + destruct S as (m' & ->). exact G.
  - assert (E : r = Err e /\ abi_types c' = m1) by (inversion H; auto). destruct E as [-> ->]. split; [exact I2|]. split; [apply R|]. intros ->. lia.
Qed.
Lemma load_actions b c c' r : convert_run b c = (c', r) ->
  action_types c' = fold_left (fun m x => zset (ac_name x) (ac_type x) m) (ad_actions b) (action_types c) /\
  table_types c' = fold_left (fun m x => zset (tb_name x) (tb_type x) m) (ad_tables b) (table_types c).
Proof.
  unfold convert_run. intros H. destruct (declare_run _ _) as [m [u|e|w]]; [destruct (fill_all_run _ _) as [m' r']|..]; inversion H; subst; split; reflexivity.
Qed.
Lemma last_declared_app {A} (key : A -> Z) val n l l' : last_declared key val n (l ++ l') = match last_declared key val n l' with Some v => Some v | None => last_declared key val n l end.
Proof. induction l as [|x l IH]; cbn [app last_declared]; [destruct (last_declared key val n l'); reflexivity|]. rewrite IH. destruct (last_declared key val n l'); reflexivity. Qed.
Lemma history_good a c r : history a c r ->
  functional a /\ inv a (abi_types c) /\
  match r with Ok _ => faithful a (abi_types c) | Err e => In e load_errors | Undef _ => False end /\
  (forall n, zfind n (action_types c) = last_declared ac_name ac_type n (ad_actions a)) /\
  (forall n, zfind n (table_types c) = last_declared tb_name tb_type n (ad_tables a)).
Proof.
  induction 1 as [b k c r H T|a c r b k c' r' Hh (F & I0 & _ & Ha & Ht) H T|a c r t Hh (F & I0 & R & Ha & Ht)].
  - destruct (load_step (nothing (ad_version b)) empty_loaded b k c r (initial_inv _) (nothing_functional _) usable_empty H T) as (F & I1 & R & _). destruct (load_actions _ _ _ _ H) as [A1 A2].
    change (merge (nothing (ad_version b)) (first_declarations k b)) with (first_declarations k b) in F, I1, R. split; [exact F|]. split; [exact I1|]. split; [destruct r; [apply R|exact R|exact R]|].
    rewrite A1, A2. cbn [first_declarations ad_actions ad_tables empty_loaded action_types table_types]. split; intros n; rewrite zfind_fold; cbn [zfind]; destruct (last_declared _ _ n _); reflexivity.
  - pose proof (emplace_initial_present a _ I0) as E. pose proof (usable_inv a c I0) as U. rewrite <- E in I0 at 1. pose proof U as U'. rewrite <- E in U' at 1.
    destruct (load_step a c b k c' r' I0 F U' H T) as (F1 & I1 & R & _). destruct (load_actions _ _ _ _ H) as [A1 A2].
    split; [exact F1|]. split; [exact I1|]. split; [destruct r'; [apply R|exact R|exact R]|]. rewrite A1, A2. cbn [merge first_declarations ad_actions ad_tables].
    split; intros n; rewrite zfind_fold, last_declared_app; destruct (last_declared _ _ n _); auto.
  - unfold abi_looked_up. cbn [abi_types action_types table_types]. split; [exact F|]. split; [now apply get_type_table_inv|]. split; [destruct r; [now apply table_faithful|exact R|exact R]|]. split; assumption.
Qed.

(** ** Definitions which declare the same *)
Section Equiv.
  Context (a b : abi_def).
  Hypothesis Q : forall n d, declares a n d <-> declares b n d.
  Lemma declared_eqv n : declared a n <-> declared b n.
  Proof. unfold declared. split; intros (d & H); exists d; apply Q; exact H. Qed.
  Lemma ext_text_eqv t : extension_text a t <-> extension_text b t.
  Proof. unfold extension_text. now rewrite declared_eqv. Qed.
  Lemma plain_eqv t : plain_text a t <-> plain_text b t.
  Proof. unfold plain_text, optional_text, array_text. now rewrite ext_text_eqv, declared_eqv. Qed.
  Lemma refers_eqv n t p : refers_to a n t p -> refers_to b n t p.
  Proof.
    induction 1 as [n t d D N|n t s p D R IH X|n t p N R IH X|n t p N R IH X|n t p N R IH X].
    - eapply refers_declared; [apply Q; exact D|exact N].
    - eapply refers_alias; [apply Q; exact D|exact IH|now rewrite <- ext_text_eqv].
    - eapply refers_optional; [now rewrite <- declared_eqv|exact IH|now apply plain_eqv].
    - eapply refers_array; [now rewrite <- declared_eqv|exact IH|now apply plain_eqv].
    - eapply refers_extension; [now rewrite <- declared_eqv|exact IH|now rewrite <- ext_text_eqv].
  Qed.
  Lemma members_eqv n ms fs : members_refer a n ms fs -> members_refer b n ms fs.
  Proof. unfold members_refer. induction 1 as [|x y ms fs [X R] M IH]; constructor; [split; [exact X|now apply refers_eqv]|exact IH]. Qed.
  Lemma fields_eqv n t fs : struct_fields a n t fs -> struct_fields b n t fs.
  Proof.
    induction 1 as [n name fields own D M|n name base fields bs inherited own Nb D R S IH M].
    - eapply fields_root; [apply Q; exact D|now apply members_eqv].
    - eapply fields_derived; [exact Nb|apply Q; exact D|apply refers_eqv; exact R|exact IH|now apply members_eqv].
  Qed.
  Lemma described_eqv n d : described a n d -> described b n d.
  Proof.
    destruct d; cbn [described]; try tauto.
    - intros [-> D]. split; [reflexivity|now apply Q].
    - intros (s & D & (k & R) & X). exists s. split; [now apply Q|]. split; [exists k; now apply refers_eqv|now rewrite <- ext_text_eqv].
    - intros (s & E & D & (k & R) & X). exists s. split; [exact E|]. split; [now rewrite <- declared_eqv|]. split; [exists k; now apply refers_eqv|now apply plain_eqv].
    - intros (s & E & D & (k & R) & X). exists s. split; [exact E|]. split; [now rewrite <- declared_eqv|]. split; [exists k; now apply refers_eqv|now rewrite <- ext_text_eqv].
    - intros (s & E & D & (k & R) & X). exists s. split; [exact E|]. split; [now rewrite <- declared_eqv|]. split; [exists k; now apply refers_eqv|now apply plain_eqv].
    - intros (k & R). exists k. now apply fields_eqv.
    - intros (ts & k & D & M). exists ts, k. split; [now apply Q|now apply members_eqv].
  Qed.
  Lemma faithful_eqv m : faithful a m -> faithful b m.
  Proof. intros [A B]. split; [intros n D; apply A, declared_eqv, D|]. intros n d H. destruct (B n d H) as [X Y]. split; [now apply described_eqv|exact Y]. Qed.
End Equiv.

(** ** Conversions by types of the abi are not touched *)
Lemma kept_both m m' p : kept m m' -> (forall n, ~ undef_entry m n) -> afind p m <> None -> both m m' p /\ both m' m p.
Proof.
  intros K N P. destruct (afind p m) as [d|] eqn:E; [|congruence]. assert (D : is_def d = false) by (destruct (is_def d) eqn:X; [exfalso; apply (N p); exists d; auto|reflexivity]).
  pose proof (K p d E D). split; exists d; auto.
Qed.
Lemma kept_closed a m m' : kept m m' -> faithful a m -> (forall p d q, both m m' p -> afind p m = Some d -> In q (pointers d) -> both m m' q) /\ (forall p d q, both m' m p -> afind p m' = Some d -> In q (pointers d) -> both m' m q).
Proof.
  intros K Fa. assert (N : forall n, ~ undef_entry m n) by (intros n; now apply (faithful_no_def a)).
  assert (X : forall p d q, afind p m = Some d -> In q (pointers d) -> both m m' q /\ both m' m q).
  { intros p d q H Hq. apply kept_both; [exact K|exact N|]. destruct (proj2 Fa _ _ H) as [_ P]. rewrite Forall_forall in P. destruct (P q Hq) as (e & -> & _). discriminate. }
  split; intros p d q (d0 & A & B) H Hq.
  - exact (proj1 (X p d q H Hq)).
  - assert (d0 = d) by congruence. subst. exact (proj2 (X p d q B Hq)).
Qed.
Lemma convert_history b c : convert b = Ok c -> history b c (Ok tt).
Proof.
  intros H. pose proof (convert_run_fresh b) as R. rewrite H in R. destruct (takes_exists empty_loaded _ b usable_empty) as (k & T).
  destruct (load_step (nothing (ad_version b)) empty_loaded b k c (Ok tt) (initial_inv _) (nothing_functional _) usable_empty R T) as (_ & _ & (-> & _) & _).
  pose proof (first_load b _ c (Ok tt) R T) as X. rewrite first_declarations_all in X. exact X.
Qed.
Lemma new_takes c b : new_names c (own_names b) -> takes c b (List.length (own_names b)).
Proof. intros H. split; [lia|]. split; [now rewrite firstn_all|lia]. Qed.
