(** * C26, C27: loading ABI definitions *)
From Verif Require Import Base Abi AbiSpec AbiFacts AbiLoad.

(** Loading always terminates with a table that means exactly what the
    definition says ([faithful]: every declared name is there, every entry is
    what the definition describes, every pointer leads to an entry of the table
    which is not an alias, nothing refers to the definition any more), or with
    one of the ABI errors; there is no undefined behaviour. *)
Theorem C26_load_total a :
  match convert a with
  | Ok c => faithful a (abi_types c)
  | Err e => In e load_errors
  | Undef _ => False
  end.
Proof. pose proof (convert_total a) as H. destruct (convert a); tauto. Qed.
Print Assumptions C26_load_total.

(** Looking up types by text (abi::get_type), any number of times. *)
Inductive after_lookups (c : abi) : abi -> Prop :=
| no_lookup : after_lookups c c
| one_more_lookup c1 c2 t p :
    after_lookups c c1 -> abi_get_type c1 t = Ok (p, c2) -> after_lookups c c2
| failed_lookup c1 t e : after_lookups c c1 -> abi_get_type c1 t = Err e -> after_lookups c (abi_looked_up c1 t).

Lemma table_faithful a d : functional a -> forall m t, faithful a m -> faithful a (get_type_table d m t).
Proof.
  intros F. induction d as [|d IH]; intros m t Fa.
  - exact Fa.
  - pose proof (get_type_faithful a m (S d) t F Fa) as G.
    assert (E : get_type_table (S d) m t = match get_type (S d) m t with Ok (_, m') => m' | _ =>
      match afind t m with
      | None =>
        if ends_with t (str "?") then get_type_table d m (drop_last 1 t)
        else if ends_with t (str "[]") then get_type_table d m (drop_last 2 t)
        else if ends_with t (str "$") then get_type_table d m (drop_last 1 t)
        else m
      | Some (AAliasDef t) => get_type_table d m t
      | Some _ => m
      end end) by reflexivity.
    rewrite E. clear E. destruct (get_type (S d) m t) as [[q m']|e|w]; [apply G| |];
      (destruct (afind t m) as [[]|]; auto; repeat match goal with |- context [if ?b then _ else _] => destruct b end; auto).
Qed.
Lemma table_ok d m t p m' : get_type d m t = Ok (p, m') -> get_type_table d m t = m'.
Proof.
  intros H. destruct d as [|d]; [discriminate|].
  assert (E : forall X, match get_type (S d) m t with Ok (_, m') => m' | _ => X end = m') by (intros X; now rewrite H).
  exact (E _).
Qed.
(** The call which succeeds leaves the table it returns. *)
Lemma looked_up_ok c t p c' : abi_get_type c t = Ok (p, c') -> abi_looked_up c t = c'.
Proof.
  unfold abi_get_type, abi_looked_up. generalize 32%nat as d. intros d H. apply bind_Ok in H as ([q m'] & E & H). injection H as <- <-.
  now rewrite (table_ok _ _ _ _ _ E).
Qed.
Lemma lookup_step d a c t : functional a -> faithful a (abi_types c) -> (3 <= d)%nat ->
  match (let* (p, m) := get_type d (abi_types c) t in Ok (p, Abi (action_types c) (table_types c) m)) with
  | Ok (p, c') => denotes a t p /\ afind p (abi_types c') <> None /\ faithful a (abi_types c')
  | Err e => In e load_errors /\ (forall p, ~ denotes a t p)
  | Undef _ => False
  end.
Proof.
  intros F Fa Hd.
  pose proof (get_type_faithful a (abi_types c) d t F Fa) as G.
  destruct (get_type d (abi_types c) t) as [[q m']|e|w] eqn:E; cbn [bind abi_types]; auto.
  - destruct G as (G1 & G2 & G3). auto.
  - split; auto. intros p D.
    destruct (get_type_runtime a (abi_types c) t p d F Fa Hd D) as [m' E']. congruence.
Qed.
Lemma lookup_now a c t : functional a -> faithful a (abi_types c) ->
  match abi_get_type c t with
  | Ok (p, c') => denotes a t p /\ afind p (abi_types c') <> None /\ faithful a (abi_types c')
  | Err e => In e load_errors /\ (forall p, ~ denotes a t p)
  | Undef _ => False
  end.
Proof. intros F Fa. unfold abi_get_type. apply (lookup_step 32); auto. apply Nat.leb_le. reflexivity. Qed.
(** After any history of lookups, the text [t] is found exactly when it has a
    meaning, the type found is that meaning, it is in the table, and the table
    is still faithful. *)
Theorem C26_lookup a c c' t :
  convert a = Ok c -> after_lookups c c' ->
  faithful a (abi_types c') /\
  match abi_get_type c' t with
  | Ok (p, c'') => denotes a t p /\ afind p (abi_types c'') <> None /\ faithful a (abi_types c'')
  | Err e => In e load_errors /\ (forall p, ~ denotes a t p)
  | Undef _ => False
  end.
Proof.
  intros H L. pose proof (convert_total a) as T. rewrite H in T. destruct T as (ND & NE & Fa).
  pose proof (names_functional a ND) as F.
  assert (faithful a (abi_types c')) as Fa'.
  { induction L as [|c1 c2 t0 p L IH E|c1 t0 e L IH E]; auto.
    - pose proof (lookup_now a c1 t0 F IH) as G. rewrite E in G. apply G.
    - unfold abi_looked_up. cbn [abi_types]. now apply table_faithful. }
  split; [exact Fa'|]. apply lookup_now; auto.
Qed.
Print Assumptions C26_lookup.

(** A type text has at most one meaning in a loaded definition. *)
Theorem C26_meaning_unique a c t p q :
  convert a = Ok c -> denotes a t p -> denotes a t q -> p = q.
Proof.
  intros H [n Hp] [k Hq]. pose proof (convert_total a) as T. rewrite H in T. destruct T as (ND & _).
  eapply denotes_fun; eauto using names_functional.
Qed.
Print Assumptions C26_meaning_unique.

(** Actions and tables: the last declaration of a name counts. *)
Fixpoint last_declared {A} (key : A -> Z) (val : A -> bytes) (k : Z) (l : list A) : option bytes :=
  match l with
  | [] => None
  | x :: l' => match last_declared key val k l' with
               | Some v => Some v
               | None => if key x =? k then Some (val x) else None
               end
  end.
Lemma zfind_zset k v m k' : zfind k' (zset k v m) = if k' =? k then Some v else zfind k' m.
Proof.
  induction m as [|[k0 v0] m IH]; cbn [zset zfind]; [reflexivity|].
  destruct (k <? k0) eqn:A; cbn [zfind]; [reflexivity|].
  destruct (k =? k0) eqn:B; cbn [zfind].
  - apply Z.eqb_eq in B. subst. destruct (k' =? k0); reflexivity.
  - rewrite IH. destruct (k' =? k0) eqn:C; [|reflexivity].
    destruct (k' =? k) eqn:D; [lia|reflexivity].
Qed.
Lemma zfind_fold {A} (key : A -> Z) (val : A -> bytes) k l : forall m,
  zfind k (fold_left (fun m x => zset (key x) (val x) m) l m) =
  match last_declared key val k l with Some v => Some v | None => zfind k m end.
Proof.
  induction l as [|x l IH]; intros m; cbn [fold_left last_declared]; [reflexivity|].
  rewrite IH, zfind_zset. destruct (last_declared key val k l); [reflexivity|].
  rewrite (Z.eqb_sym (key x) k). destruct (k =? key x); reflexivity.
Qed.
Theorem C26_actions_and_tables a c n :
  convert a = Ok c ->
  zfind n (action_types c) = last_declared ac_name ac_type n (ad_actions a) /\
  zfind n (table_types c) = last_declared tb_name tb_type n (ad_tables a).
Proof.
  unfold convert. intros H. apply bind_Ok in H. destruct H as (m & _ & H).
  apply bind_Ok in H. destruct H as (m' & _ & H).
  assert (c = Abi (fold_left (fun m x => zset (ac_name x) (ac_type x) m) (ad_actions a) [])
                  (fold_left (fun m x => zset (tb_name x) (tb_type x) m) (ad_tables a) []) m') by congruence.
  subst. cbn [action_types table_types]. rewrite !zfind_fold. cbn [zfind].
  split; [destruct (last_declared ac_name ac_type n (ad_actions a))
         |destruct (last_declared tb_name tb_type n (ad_tables a))]; reflexivity.
Qed.
Print Assumptions C26_actions_and_tables.

(** ** C27 *)
(** Every definition without faults whose chains are within the limit loads. *)
Theorem C27_accepts a : well_formed a 32 -> exists c, convert a = Ok c.
Proof. apply convert_ok. Qed.
Print Assumptions C27_accepts.

Lemma uniform {A} (P : nat -> A -> Prop) (l : list A) :
  (forall n m x, P n x -> (n <= m)%nat -> P m x) ->
  (forall x, In x l -> exists n, P n x) -> exists n, forall x, In x l -> P n x.
Proof.
  intros Mono. induction l as [|x l IH]; intros H; [exists 0%nat; intros x []|].
  destruct (H x) as [n Hn]; [left; auto|].
  destruct IH as [m Hm]; [intros; apply H; right; auto|].
  exists (Nat.max n m). intros y [<-|Hy]; [eapply Mono; eauto; lia|eapply Mono; [apply Hm; auto|lia]].
Qed.

(** Only well formed definitions load: no duplicate or empty name, every alias
    and base and member has a meaning (so no unknown type, no forbidden nesting,
    no extension behind an alias, no base which is not a struct, no cycle of
    aliases or bases). *)
Theorem C27_rejects a c : convert a = Ok c -> exists n, well_formed a n.
Proof.
  intros H. pose proof (convert_total a) as T. rewrite H in T. destruct T as (ND & NE & Fa & Fb).
  pose proof (names_functional a ND) as F.
  assert (forall n d, declares a n d -> exists x, described a n x) as Des.
  { intros n d D. assert (afind n (abi_types c) <> None) as P by (apply Fa; eexists; eauto).
    destruct (afind n (abi_types c)) as [x|] eqn:E; [|congruence]. exists x. apply Fb. auto. }
  assert (forall n d x, declares a n d -> described a n x ->
            match d with
            | DBuiltin => True
            | DAlias s => exists p k, refers_to a k n p
            | DStruct _ _ => exists k fs, struct_fields a k n fs
            | DVariant ts => exists k fs, members_refer a k (map (fun t => (t, t)) ts) fs
            end) as Kind.
  { intros n d x D X. destruct x; cbn in X; try contradiction.
    - destruct X as [_ X]. rewrite (F _ _ _ D X). exact I.
    - destruct X as (s & Ds & (k & Dk) & NX). rewrite (F _ _ _ D Ds). exists p, (S k).
      eapply refers_alias; eauto.
    - destruct X as (b & -> & N & _). exfalso. apply N. eexists; eauto.
    - destruct X as (b & -> & N & _). exfalso. apply N. eexists; eauto.
    - destruct X as (b & -> & N & _). exfalso. apply N. eexists; eauto.
    - destruct X as (k & SF). pose proof SF as SF'. inversion SF; subst;
        match goal with D0 : declares a n (DStruct _ _) |- _ => rewrite (F _ _ _ D D0) end; eauto.
    - destruct X as (ts & k & Ds & M). rewrite (F _ _ _ D Ds). eauto. }
  destruct (uniform (fun k t => exists p, refers_to a k (new_type_name t) p) (ad_types a)) as [n1 H1].
  { intros n m x [p Hp] L. exists p. eapply refers_mono; eauto. }
  { intros t Ht. pose proof (declares_type a t Ht) as D. destruct (Des _ _ D) as [x X].
    destruct (Kind _ _ _ D X) as (p & k & R). eauto. }
  destruct (uniform (fun k s => exists fs, struct_fields a k (sd_name s) fs) (ad_structs a)) as [n2 H2].
  { intros n m x [p Hp] L. exists p. eapply struct_fields_mono; eauto. }
  { intros t Ht. pose proof (declares_struct a t Ht) as D. destruct (Des _ _ D) as [x X].
    exact (Kind _ _ _ D X). }
  destruct (uniform (fun k v => forall t, In t (vd_types v) -> exists p, refers_to a k t p) (ad_variants a)) as [n3 H3].
  { intros n m x Hx L t Ht. destruct (Hx t Ht) as [p Hp]. exists p. eapply refers_mono; eauto. }
  { intros v Hv. pose proof (declares_variant a v Hv) as D. destruct (Des _ _ D) as [x X].
    destruct (Kind _ _ _ D X) as (k & fs & M). exists k. intros t Ht.
    clear - M Ht. revert fs M. induction (vd_types v) as [|u l IH]; cbn; intros fs M; [destruct Ht|].
    inversion M as [|? y ? ? [_ R] M']; subst. cbn in R. destruct Ht as [<-|Ht]; eauto. }
  exists (S (Nat.max n1 (Nat.max n2 n3))). constructor; auto.
  - intros t Ht. destruct (H1 t Ht) as [p R]. exists p. eapply refers_mono; eauto. lia.
  - intros s Hs. destruct (H2 s Hs) as [fs R]. exists fs. eapply struct_fields_mono; eauto. lia.
  - intros v t Hv Ht. destruct (H3 v Hv t Ht) as [p R]. exists p. eapply refers_mono; eauto. lia.
Qed.
Print Assumptions C27_rejects.

(** Names: the error tells which fault. *)
Theorem C27_names a :
  (In [] (declared_names a) \/ ~ NoDup (declared_names a)) ->
  convert a = Err E_missing_name \/ convert a = Err E_redefined_type.
Proof.
  intros H. unfold convert. pose proof (declare_names a) as DN.
  pose proof (declare_spec (declarations a) initial_types) as S.
  destruct (declare (declarations a) initial_types) as [m|e|w]; cbn [bind].
  - destruct (proj1 DN ltac:(eauto)). tauto.
  - destruct S as [[-> _]|[-> _]]; auto.
  - contradiction.
Qed.
Print Assumptions C27_names.

(** ** Examples *)
Definition ex_abi : abi_def :=
  AbiDef (str "eosio::abi/1.1")
    [TypeDef (str "id") (str "uint64"); TypeDef (str "ids") (str "id[]")]
    [StructDef (str "derived") (str "base") [FieldDef (str "more") (str "ids"); FieldDef (str "self") (str "derived?")];
     StructDef (str "base") [] [FieldDef (str "who") (str "name"); FieldDef (str "v") (str "var")];
     StructDef (str "tail") [] [FieldDef (str "x") (str "int8"); FieldDef (str "y") (str "ids$")]]
    [ActionDef 5 (str "derived") []; ActionDef 5 (str "base") []] [] [] [] []
    [VariantDef (str "var") [str "id"; str "string"; str "derived[]"]].
Example ex_abi_loads : exists c, convert ex_abi = Ok c
  /\ afind (str "derived") (abi_types c) =
     Some (AStruct [(str "who", str "name"); (str "v", str "var"); (str "more", str "id[]");
                    (str "self", str "derived?")])
  /\ afind (str "var") (abi_types c) =
     Some (AVariant [(str "id", str "uint64"); (str "string", str "string"); (str "derived[]", str "derived[]")])
  /\ zfind 5 (action_types c) = Some (str "base").
Proof. eexists. split; [vm_compute; reflexivity|]. vm_compute. auto. Qed.
Example ex_errors :
  convert (AbiDef [] [TypeDef (str "a") (str "b"); TypeDef (str "b") (str "a")] [] [] [] [] [] [] [])
    = Err E_recursion_limit_reached /\
  convert (AbiDef [] [TypeDef (str "a") (str "b")] [] [] [] [] [] [] []) = Err E_unknown_type /\
  convert (AbiDef [] [TypeDef (str "a") (str "name??")] [] [] [] [] [] [] []) = Err E_invalid_nesting /\
  convert (AbiDef [] [TypeDef (str "a") (str "name$")] [] [] [] [] [] [] []) = Err E_extension_typedef /\
  convert (AbiDef [] [TypeDef (str "name") (str "bool")] [] [] [] [] [] [] []) = Err E_redefined_type /\
  convert (AbiDef [] [] [StructDef (str "s") (str "name") []] [] [] [] [] [] []) = Err E_base_not_a_struct /\
  convert (AbiDef [] [] [StructDef [] [] []] [] [] [] [] [] []) = Err E_missing_name.
Proof. vm_compute. repeat split. Qed.

(** The depth limit is applied during loading, whose order follows the names:
    a chain of aliases beyond the limit is refused or not depending on how the
    types are called. *)
Definition chain_up (n : nat) : abi_def :=    (* each name refers to the next longer one *)
  AbiDef [] (TypeDef (repeat 97 (S n)) (str "bool") ::
             map (fun i => TypeDef (repeat 97 (S i)) (repeat 97 (S (S i)))) (seq 0 n)) [] [] [] [] [] [] [].
Definition chain_down (n : nat) : abi_def :=  (* each name refers to the next shorter one *)
  AbiDef [] (TypeDef [97] (str "bool") ::
             map (fun i => TypeDef (repeat 97 (S (S i))) (repeat 97 (S i))) (seq 0 n)) [] [] [] [] [] [] [].
Theorem C27_limit_depends_on_names :
  convert (chain_up 40) = Err E_recursion_limit_reached /\
  exists c, convert (chain_down 40) = Ok c.
Proof. split; [vm_compute; reflexivity|]. eexists. vm_compute. reflexivity. Qed.
Print Assumptions C27_limit_depends_on_names.
