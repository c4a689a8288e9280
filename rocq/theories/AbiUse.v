(** * Using a loaded ABI: what holds for the type a caller gets from it (specification
    vocabulary [loaded], and proofs) *)
From Verif Require Import Base Abi AbiSpec AbiFacts AbiLoad Prop_Abi AbiValue AbiBinSound AbiDoc.

(** The caller loaded the definition [a], looked up any number of types, and then got the
    type [p] for the text [t]; [m] is the table of types at that time. *)
Definition loaded (a : abi_def) (t p : bytes) (m : amap) : Prop :=
  exists c c' c'', convert a = Ok c /\ after_lookups c c' /\ abi_get_type c' t = Ok (p, c'') /\ m = abi_types c''.

(** All texts in the definition are strings of bytes. *)
Definition abi_names_ok (a : abi_def) : Prop :=
  (forall s f, In s (ad_structs a) -> In f (sd_fields s) -> bytes_ok (fd_name f)) /\
  (forall v t, In v (ad_variants a) -> In t (vd_types v) -> bytes_ok t).

Lemma loaded_faithful a t p m : loaded a t p m -> faithful a m /\ denotes a t p /\ afind p m <> None.
Proof.
  intros (c & c' & c'' & H & L & G & ->). pose proof (C26_lookup a c c' t H L) as [_ K]. rewrite G in K. tauto.
Qed.
Lemma loaded_functional a t p m : loaded a t p m -> functional a.
Proof.
  intros (c & c' & c'' & H & _). pose proof (convert_total a) as T. rewrite H in T. destruct T as (ND & _).
  now apply names_functional.
Qed.
Lemma loaded_sound a t p m : loaded a t p m -> sound_map m.
Proof. intros H. apply loaded_faithful in H as (F & _). eapply faithful_sound; eauto. Qed.
Lemma refers_target a : functional a -> forall n t p, refers_to a n t p -> forall s, ~ declares a p (DAlias s).
Proof.
  intros F. induction 1; intros s' D.
  - apply (H0 s'). eapply F; eauto.
  - eapply IHrefers_to; eauto.
  - apply H. eexists; eauto.
  - apply H. eexists; eauto.
  - apply H. eexists; eauto.
Qed.
Lemma loaded_type a t p m : loaded a t p m -> type_in m p.
Proof.
  intros H. pose proof (loaded_functional _ _ _ _ H) as F. apply loaded_faithful in H as ([_ Fb] & [n D] & P).
  destruct (afind p m) as [e|] eqn:E; [|congruence]. exists e. split; [exact E|]. intros q ->.
  destruct (Fb p _ E) as [(s & Ds & _) _]. eapply refers_target; eauto.
Qed.
Lemma members_names (a : abi_def) n ms fs : members_refer a n ms fs -> Forall (fun x => bytes_ok (fst x)) ms -> Forall (fun x => bytes_ok (fst x)) fs.
Proof. induction 1 as [|x y ? ? [A B]]; intros F; [constructor|]. apply Forall_cons_iff in F as [F1 F2]. constructor; auto. congruence. Qed.
Lemma loaded_names a t p m : abi_names_ok a -> loaded a t p m -> names_ok m.
Proof.
  intros [N1 N2] H. apply loaded_faithful in H as ([_ Fb] & _).
  assert (S : forall name base fields, declares a name (DStruct base fields) -> Forall (fun x => bytes_ok (fst x)) fields).
  { intros name base fields D. inversion D; subst.
    - constructor; [apply bytes_okb_spec; reflexivity|]. constructor; [apply bytes_okb_spec; reflexivity|constructor].
    - apply Forall_forall. intros x Hx. apply in_map_iff in Hx as (f & <- & Hf). eapply N1; eauto. }
  assert (SF : forall k name fs, struct_fields a k name fs -> Forall (fun x => bytes_ok (fst x)) fs).
  { intros k name fs D. induction D; [eapply members_names; eauto|]. apply Forall_app. split; [assumption|eapply members_names; eauto]. }
  intros q fs [E|E]; destruct (Fb _ _ E) as [D _]; cbn [described] in D.
  - destruct D as (k & D). eauto.
  - destruct D as (ts & k & D & M). eapply members_names; [exact M|]. inversion D; subst.
    apply Forall_forall. intros x Hx. apply in_map_iff in Hx as (f & <- & Hf). cbn. eapply N2; eauto.
Qed.

(** Deciding [trailing_extensions]. *)
Definition extb (m : amap) (p : bytes) : bool := match afind p m with Some (AExtension _) => true | _ => false end.
Fixpoint ext_lastb (m : amap) (seen : bool) (fs : list (bytes * bytes)) : bool :=
  match fs with [] => true | f :: fs' => (negb seen || extb m (snd f)) && ext_lastb m (seen || extb m (snd f)) fs' end.
Definition trailingb (m : amap) : bool := forallb (fun e => match snd e with AStruct fs => ext_lastb m false fs | _ => true end) m.
Lemma extb_spec m p : extb m p = true <-> extension_type m p.
Proof.
  unfold extb, extension_type. split.
  - destruct (afind p m) as [[]|]; try discriminate. eauto.
  - intros [q ->]. reflexivity.
Qed.
Lemma trailingb_spec m : trailingb m = true -> trailing_extensions m.
Proof.
  intros H p fs f gs1 gs2 Hp -> Hx. unfold trailingb in H. rewrite forallb_forall in H. apply afind_In in Hp. specialize (H _ Hp). cbn [snd] in H.
  apply extb_spec in Hx.
  assert (G : forall gs, ext_lastb m true gs = true -> Forall (fun x => extension_type m (snd x)) gs).
  { induction gs as [|g gs IH]; intros G; [constructor|]. cbn [ext_lastb negb orb] in G. apply andb_true_iff in G as [G1 G2]. constructor; [now apply extb_spec|auto]. }
  clear Hp. revert H. generalize false as seen. induction gs1 as [|g gs1 IH]; intros seen H; cbn [app ext_lastb] in H; apply andb_true_iff in H as [_ H].
  - rewrite Hx, orb_true_r in H. auto.
  - eapply IH; eauto.
Qed.
