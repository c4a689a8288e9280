(** * CapiOomFacts: lemmas for C66 *)
From Verif Require Import Base Stream TypedBin Hex Name Json Abi AbiSpec AbiFacts AbiLoad Prop_Abi AbiScalar AbiBin AbiJson AbiDef AbiUse AbiStable ReloadFacts Capi CapiSpec CapiFacts CapiOom.

(** An interrupted lookup leaves what a complete lookup of some text leaves. *)
Lemma get_type_deeper : forall d m t p m', get_type d m t = Ok (p, m') -> forall d', (d <= d')%nat -> get_type d' m t = Ok (p, m').
Proof.
  induction d as [|d IH]; intros m t p m' H d' L; [discriminate|]. destruct d' as [|d']; [lia|]. assert (L' : (d <= d')%nat) by lia.
  cbn [get_type] in *. destruct (afind t m) as [[]|]; try exact H.
  - apply bind_Ok in H as ([q m1] & G & H). rewrite (IH _ _ _ _ G d' L'). exact H.
  - repeat match goal with |- context [ends_with ?a ?b] => destruct (ends_with a b) end; try exact H;
      (apply bind_Ok in H as ([q m1] & G & H); rewrite (IH _ _ _ _ G d' L'); exact H).
Qed.
Lemma interrupted_complete d m t m' : interrupted d m t m' -> m' = m \/ exists s p d1, (d1 <= d)%nat /\ get_type d1 m s = Ok (p, m').
Proof.
  induction 1 as [|d m t s m' I H [->|(s' & p & d1 & L & G)]|d m t s p m' I G]; [now left|now left| |].
  - right. exists s', p, d1. split; [lia|exact G].
  - right. exists s, p, d. split; [lia|exact G].
Qed.
Lemma interrupted_after c0 a t m' : after_lookups c0 a -> interrupted 32 (abi_types a) t m' -> after_lookups c0 (Abi (action_types a) (table_types a) m').
Proof.
  intros A I. apply interrupted_complete in I as [->|(s & p & d & L & G)]; [now destruct a|].
  eapply one_more_lookup; [exact A|]. unfold abi_get_type. rewrite (get_type_deeper d _ _ _ _ G 32 L). reflexivity.
Qed.

(** What running out of memory does to the contracts. *)
Definition cut_short (c c' : context) : Prop :=
  contracts c' = contracts c \/ exists k a a', cfind k (contracts c) = Some a /\ (forall c0, after_lookups c0 a -> after_lookups c0 a') /\ contracts c' = update k a' (contracts c).
Lemma in_lookup_cut k a t c c' : cfind k (contracts c) = Some a -> in_lookup k a t c c' -> cut_short c c'.
Proof. intros F (m' & I & ->). right. exists k, a, (Abi (action_types a) (table_types a) m'). split; [exact F|]. split; [|reflexivity]. intros c0 A. now apply (interrupted_after c0 a t). Qed.
Lemma in_json_cut k t c c' : in_json k t c c' -> cut_short c c'.
Proof.
  unfold in_json. destruct (cfind _ _) as [a|] eqn:F; [|intros ->; now left]. intros [H|(p & a' & G & ->)].
  - now apply (in_lookup_cut k a t _ c' F) in H.
  - right. exists k, a, a'. split; [exact F|]. split; [|reflexivity]. intros c0 A. eapply one_more_lookup; eauto.
Qed.
Lemma in_bin_cut E k t d c c' : in_bin_to_json E k t d c c' -> cut_short c c'.
Proof.
  unfold in_bin_to_json. destruct (cfind _ _) as [a|] eqn:F; [|intros ->; now left]. intros [H|(p & a' & G & H)].
  - now apply (in_lookup_cut k a t _ c' F) in H.
  - right. exists k, a, a'. split; [exact F|]. split; [intros c0 A; eapply one_more_lookup; eauto|]. destruct H as [->|(x & r & _ & _ & ->)]; reflexivity.
Qed.
Lemma in_set_bin_cut d c c' : in_set_abi_bin d c c' -> cut_short c c'.
Proof. destruct d as [[|]|]; cbn [in_set_abi_bin]; try contradiction. unfold in_loading. intros ->. now left. Qed.
Lemma runs_out_cut E f c c' : runs_out E f c c' -> cut_short c c'.
Proof.
  destruct f; cbn [runs_out]; try contradiction.
  - intros [n ->]. now left.
  - intros ->. now left.
  - unfold in_loading. intros ->. now left.
  - apply in_set_bin_cut.
  - intros [->|(b & _ & H)]; [now left|]. eapply in_set_bin_cut, H.
  - intros [-> _]. now left.
  - intros [-> _]. now left.
  - apply in_json_cut.
  - apply in_json_cut.
  - apply in_bin_cut.
  - intros [->|(b & _ & H)]; [now left|]. eapply in_bin_cut, H.
Qed.
Lemma short_cut E c f c' r : short_call E c f c' r -> cut_short c c'.
Proof. intros (c1 & H & -> & _). apply runs_out_cut in H. exact H. Qed.

(** The calls of a history which had enough memory. *)
Fixpoint done (h : list event) : list (op * ret) :=
  match h with [] => [] | Returned f r :: h => (f, r) :: done h | Short _ _ :: h => done h end.
Lemma cut_ok E h c c' : state_ok E h c -> cut_short c c' -> state_ok E h c'.
Proof.
  intros I K k. pose proof (I k) as Ik. destruct K as [->|(k1 & a & a' & F & L & ->)]; [exact Ik|].
  rewrite cfind_update. destruct (Z.eqb_spec k k1) as [->|]; [|exact Ik]. rewrite F in *. destruct Ik as (d & c0 & A & Cv & B). eauto 6.
Qed.
Lemma srun_ok E c h c' : srun E c h c' -> forall h0, state_ok E h0 c -> state_ok E (h0 ++ done h) c'.
Proof.
  induction 1 as [c|c f c1 r h c2 H _ IH|c f c1 r h c2 H _ IH]; intros h0 I; cbn [done].
  - now rewrite app_nil_r.
  - change ((f, r) :: done h) with ([(f, r)] ++ done h). rewrite app_assoc. apply IH. eapply state_ok_step; eauto.
  - apply IH. eapply cut_ok; [exact I|]. eapply short_cut, H.
Qed.
Lemma sreached_ok E h c : srun E create h c -> state_ok E (done h) c.
Proof. intros R. apply (srun_ok E create h c R []). intros k (f & [] & _). Qed.
Lemma state_abi E h c k d : state_ok E h c -> abi_of E h k d -> exists a c0, cfind k (contracts c) = Some a /\ convert d = Ok c0 /\ after_lookups c0 a.
Proof.
  intros R A. pose proof (R k) as I. destruct (cfind k (contracts c)) as [a|].
  - destruct I as (d0 & c0 & B & Cv & L). rewrite (abi_of_fun _ _ _ _ _ A B). eauto.
  - destruct I. eapply abi_of_set; eauto.
Qed.
Lemma state_none E h c k : state_ok E h c -> ~ is_set k h -> cfind k (contracts c) = None.
Proof.
  intros R N. pose proof (R k) as I. destruct (cfind k (contracts c)) as [a|]; [|reflexivity].
  destruct I as (d & _ & A & _). destruct N. eapply abi_of_set; eauto.
Qed.
Lemma state_cases E h c k : state_ok E h c -> ~ is_set k h \/ exists d, abi_of E h k d.
Proof. intros R. pose proof (R k) as I. destruct (cfind k (contracts c)); [right|now left]. destruct I as (d & _ & A & _). eauto. Qed.

(** ** The types which an interrupted lookup has added *)
(** [q] is a text the table answers without further work. *)
Definition ready (m : amap) (q : bytes) : Prop := exists x, afind q m = Some x /\ is_def x = false.
Lemma ready_kept m m' q : kept m m' -> ready m q -> ready m' q.
Proof. intros K (x & F & N). exists x. split; [apply K; assumption|exact N]. Qed.
Lemma ready_alias m k p q : ready m q -> ready (aset k (AAlias p) m) q.
Proof.
  intros (x & F & N). unfold ready. rewrite afind_aset. destruct (beq q k) eqn:B; [|destruct (afind k m); eauto].
  apply beq_eq in B. subst. rewrite F. exists (AAlias p). auto.
Qed.
Lemma get_type_table_ok d m t p m' : get_type d m t = Ok (p, m') -> get_type_table d m t = m'.
Proof. intros H. destruct d; [discriminate|]. cbn [get_type_table]. rewrite H. reflexivity. Qed.
Lemma table_failed d m t base : inner_text m t = Some base -> (forall p m', get_type (S d) m t <> Ok (p, m')) -> get_type_table (S d) m t = get_type_table d m base.
Proof.
  intros J N. assert (E : get_type_table (S d) m t = match get_type (S d) m t with Ok (_, m') => m' | _ =>
      match afind t m with
      | None =>
        if ends_with t (str "?") then get_type_table d m (drop_last 1 t)
        else if ends_with t (str "[]") then get_type_table d m (drop_last 2 t)
        else if ends_with t (str "$") then get_type_table d m (drop_last 1 t)
        else m
      | Some (AAliasDef t) => get_type_table d m t
      | Some _ => m
      end end) by reflexivity.
  rewrite E. clear E. unfold inner_text in J. destruct (get_type (S d) m t) as [[q m']|e|w]; [destruct (N q m' eq_refl)| |];
    (destruct (afind t m) as [[]|]; try discriminate; [congruence|]; destruct (ends_with t (str "?")); [congruence|]; destruct (ends_with t (str "[]")); [congruence|]; destruct (ends_with t (str "$")); [congruence|discriminate]).
Qed.
Lemma ready_inner d m t base q : inner_text m t = Some base -> ready (get_type_table d m base) q -> ready (get_type_table (S d) m t) q.
Proof.
  intros J R. destruct (get_type (S d) m t) as [[p m']|e|w] eqn:G.
  2, 3: rewrite (table_failed d m t base J); [exact R|rewrite G; discriminate].
  rewrite (get_type_table_ok _ _ _ _ _ G). cbn [get_type] in G. unfold inner_text in J. destruct (afind t m) as [[]|] eqn:F; try discriminate.
  - injection J as ->. apply bind_Ok in G as ([p1 m1] & G1 & G). rewrite (get_type_table_ok _ _ _ _ _ G1) in R.
    apply bind_Ok in G as (y & _ & G). apply bind_Ok in G as (u & _ & G). assert (m' = aset t (AAlias p1) m1) as -> by congruence. apply ready_alias, R.
  - destruct (ends_with t (str "?")); [|destruct (ends_with t (str "[]")); [|destruct (ends_with t (str "$")); [|discriminate J]]];
      injection J as <-; apply bind_Ok in G as ([p1 m1] & G1 & G); rewrite (get_type_table_ok _ _ _ _ _ G1) in R;
      apply bind_Ok in G as (y & _ & G); apply bind_Ok in G as (u & _ & G);
      match type of G with Ok (_, ?z) = _ => assert (m' = z) by congruence; subst m' end; (eapply ready_kept; [apply kept_emplace|exact R]).
Qed.
Lemma interrupted_ready d m t m' q : interrupted d m t m' -> ready m' q -> ready (get_type_table d m t) q.
Proof.
  induction 1 as [d m t|d m t base m' J I IH|d m t base p m' J G]; intros R.
  - eapply ready_kept; [apply get_type_table_kept|exact R].
  - eapply ready_inner; eauto.
  - eapply ready_inner; [exact J|]. rewrite (get_type_table_ok _ _ _ _ _ G). exact R.
Qed.
