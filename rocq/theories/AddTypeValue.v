(** * AddTypeValue: values of a C++ type as values of the derived ABI type (proofs only) *)
From Verif Require Import Base Stream StreamFacts TypedBin TypedSpec TypedBinFacts Utf8 Json JsonSpec JsonFacts JsonPrint Keys Abi AbiSpec AbiFacts AbiScalar AbiScalarFacts
  AbiValue AbiBinSound AbiRead AbiReadBack TypedJson TypedJsonSpec TypedJsonFacts TypedJsonBack ShipFacts AddType AddTypeSpec AddTypeFacts AddTypeRun.

Fixpoint av (t : jty) (v : val) {struct t} : aval :=
  match t, v with
  | JScalar b, _ => AVBase b v
  | JVec t', VList l => AVList (map (av t') l)
  | JOpt t', VOpt (Some x) => AVSome (av t' x)
  | JVariant ts, VVar i x => match nthz (map av ts) i with Some f => AVVar i (f x) | None => AVNone end
  | JStruct _ fs, VList l =>
      AVStruct ((fix go (fs : list (bytes * jty)) (l : list val) {struct fs} : list aval :=
                   match fs, l with f :: fs', x :: l' => av (snd f) x :: go fs' l' | _, _ => [] end) fs l)
  | JView, _ => AVBase B_bytes v
  | _, _ => AVNone
  end.
Fixpoint avs (fs : list (bytes * jty)) (l : list val) {struct fs} : list aval :=
  match fs, l with f :: fs', x :: l' => av (snd f) x :: avs fs' l' | _, _ => [] end.
Lemma av_struct n fs l : av (JStruct n fs) (VList l) = AVStruct (avs fs l). Proof. reflexivity. Qed.

Lemma writable_child t c : In c (children t) -> writable_type t = true -> writable_type c = true.
Proof. intros Hc H. unfold writable_type in *. rewrite forallb_forall in *. intros u Hu. apply H. eapply parts_child; eauto. Qed.
Lemma describes_child m t c : In c (children t) -> describes m t -> describes m c.
Proof. intros Hc H u Hu. apply H. eapply parts_child; eauto. Qed.
Lemma describes_self m t : describes m t -> afind (abi_name t) m = Some (shape t).
Proof. intros H. apply H, parts_self. Qed.
Lemma writes_self t : writable_type t = true -> writes t = true.
Proof. unfold writable_type. rewrite forallb_forall. intros H. apply H, parts_self. Qed.
Lemma writes_name t : writes t = true -> abi_name t = type_name t.
Proof. destruct t; intros H; try reflexivity; discriminate H. Qed.

Lemma scalar_enc renc b v : scalar_ok b v -> enc_with renc (scalar_ty b) v = Ok (scalar_bytes b v).
Proof.
  intros H. destruct (scalar_bytes_enc b v H) as (X & _). rewrite <- X. rewrite enc_unfold. destruct b; reflexivity.
Qed.
Lemma raws_seq renc rwf t w l : bitwise_size t = Some w -> forallb (wf_with rwf t) l = true -> raws t l = enc_seq (enc_with renc t) l.
Proof.
  intros B. induction l as [|x l IH]; intros H; [reflexivity|]. cbn [forallb] in H. apply andb_true_iff in H as [H1 H2]. cbn [raws enc_seq]. rewrite (IH H2).
  destruct t; try discriminate B; destruct x; try discriminate H1; reflexivity.
Qed.
Lemma F2_length {A B} (R : A -> B -> Prop) l l' : Forall2 R l l' -> List.length l = List.length l'.
Proof. induction 1; cbn [List.length]; congruence. Qed.
Section Values.
  Context (E : float_lib) (rwf : nat -> val -> bool) (renc : nat -> val -> res bytes) (rdoc : nat -> val -> res jv) (m : amap).

  Lemma av_enc : forall t, addable t = true -> writable_type t = true -> forall v, wf_with rwf (erase t) v = true ->
    enc_with renc (erase t) v = Ok (AbiValue.enc (av t v)).
  Proof.
    induction t as [b|t IH|t IH|tys IH|nm fs IH|a b IHa IHb|t IH| |t IH|names|k] using jty_ind'; intros A W v H; try discriminate A;
      try (apply writes_self in W; discriminate W).
    - cbn [erase av AbiValue.enc] in *. apply scalar_enc. unfold scalar_ok. now apply scalar_wf in H.
    - cbn [addable] in A. apply andb_true_iff in A as [_ A]. destruct v as [| | | |l| |]; try discriminate H. cbn [erase wf_with] in H. apply andb_true_iff in H as [Hl H].
      cbn [erase enc_with av AbiValue.enc]. rewrite map_length, map_map, (envu_len l Hl).
      assert (X : enc_seq (enc_with renc (erase t)) l = Ok (concat (map (fun x => AbiValue.enc (av t x)) l))).
      { apply (enc_seq_all _ _ (wf_with rwf (erase t))); [|exact H]. intros x Hx. exact (IH A (writable_child (JVec t) t (or_introl eq_refl) W) x Hx). }
      destruct (bitwise_size (erase t)) eqn:B; [rewrite (raws_seq renc rwf _ _ _ B H)|]; rewrite X; reflexivity.
    - cbn [addable] in A. apply andb_true_iff in A as [_ A]. destruct v as [| | | | |[x|]|]; try discriminate H; cbn [erase wf_with] in H; cbn [erase enc_with av AbiValue.enc]; [|reflexivity].
      rewrite (IH A (writable_child (JOpt t) t (or_introl eq_refl) W) x H). reflexivity.
    - cbn [addable] in A. destruct v as [| | | | | |i x]; try discriminate H. cbn [erase wf_with] in H. apply andb_true_iff in H as [Hi H].
      cbn [erase enc_with av]. rewrite (envu_Ok i Hi). rewrite !nthz_map in H. rewrite !nthz_map.
      destruct (nthz tys i) as [t|] eqn:N; cbn [option_map] in *; [|discriminate H]. apply nthz_In in N. rewrite Forall_forall in IH. rewrite forallb_forall in A.
      specialize (A t N). apply andb_true_iff in A as [_ A]. rewrite (IH t N A (writable_child (JVariant tys) t N W) x H). reflexivity.
    - cbn [addable] in A. destruct v as [| | | |l| |]; try discriminate H. cbn [erase wf_with] in H. rewrite av_struct. cbn [erase enc_with AbiValue.enc].
      assert (Wc : forall f, In f fs -> writable_type (snd f) = true) by (intros f Hf; eapply writable_child; [|exact W]; cbn [children]; now apply in_map).
      clear W. revert l H A Wc. induction fs as [|f fs IHf]; intros l H A Wc.
      + destruct l; [reflexivity|discriminate H].
      + destruct l as [|x l]; [discriminate H|]. cbn [map forallb2] in H. apply andb_true_iff in H as [H1 H2]. cbn [forallb] in A. apply andb_true_iff in A as [A1 A2].
        apply Forall_cons_iff in IH as [IH1 IH2]. cbn [map enc_tuple avs concat]. rewrite (IH1 A1 (Wc f (or_introl eq_refl)) x H1).
        rewrite (IHf IH2 l H2 A2 (fun g Hg => Wc g (or_intror Hg))). reflexivity.
    - cbn [erase av AbiValue.enc] in *. change TStream with (scalar_ty B_bytes) in *. apply scalar_enc. now apply scalar_wf in H.
  Qed.

  Definition brief (j : jv) : Prop := Z.of_nat (List.length (print j)) < 2 ^ 31.
  Lemma sep_length (l : list bytes) : (List.length l <= S (List.length (sep_concat l)))%nat.
  Proof.
    induction l as [|x [|y l] IH]; [cbn; lia|cbn; lia|]. change (sep_concat (x :: y :: l)) with (x ++ [44] ++ sep_concat (y :: l)). rewrite !app_length. cbn [List.length] in *. lia.
  Qed.
  Lemma sep_member (l : list bytes) x : In x l -> (List.length x <= List.length (sep_concat l))%nat.
  Proof.
    induction l as [|y [|z l] IH]; intros H; [destruct H|destruct H as [->|[]]; reflexivity|]. change (sep_concat (y :: z :: l)) with (y ++ [44] ++ sep_concat (z :: l)). rewrite !app_length. destruct H as [->|H]; [lia|]. specialize (IH H). cbn [List.length] in *. lia.
  Qed.
  Lemma brief_item js j : brief (JArr js) -> In j js -> brief j.
  Proof. unfold brief. cbn [print]. rewrite !app_length. intros H Hj. pose proof (sep_member (map print js) (print j) (in_map print js j Hj)). lia. Qed.
  Lemma brief_size js : brief (JArr js) -> Z.of_nat (List.length js) < 2 ^ 31.
  Proof. unfold brief. cbn [print]. rewrite !app_length. intros H. pose proof (sep_length (map print js)) as L. rewrite map_length in L. cbn [List.length] in H. lia. Qed.
  Lemma brief_member ms k j : brief (JObj ms) -> In (k, j) ms -> brief j.
  Proof.
    unfold brief. cbn [print]. rewrite !app_length. intros H Hj.
    pose proof (sep_member _ _ (in_map (fun kv => to_json_string (fst kv) ++ [58] ++ print (snd kv)) ms (k, j) Hj)) as L. cbn [fst snd] in L. rewrite !app_length in L. lia.
  Qed.
  Lemma nesting_item js j k : (nesting (JArr js) <= S k)%nat -> In j js -> (nesting j <= k)%nat.
  Proof.
    cbn [nesting]. intros H. assert (G : (fold_right (fun x n => Nat.max (nesting x) n) O js <= k)%nat) by lia. clear H.
    induction js as [|y js IH]; intros Hj; [destruct Hj|]. cbn [fold_right] in G. destruct Hj as [->|Hj]; [lia|apply IH; [lia|exact Hj]].
  Qed.
  Lemma nesting_member (ms : list (bytes * jv)) x j k : (nesting (JObj ms) <= S k)%nat -> In (x, j) ms -> (nesting j <= k)%nat.
  Proof.
    cbn [nesting]. intros H. assert (G : (fold_right (fun x n => Nat.max (nesting (snd x)) n) O ms <= k)%nat) by lia. clear H.
    induction ms as [|y ms IH]; intros Hj; [destruct Hj|]. cbn [fold_right] in G. destruct Hj as [->|Hj]; [cbn [snd] in G; lia|apply IH; [lia|exact Hj]].
  Qed.
  Lemma nesting_S j k : (nesting j <= k)%nat -> (exists l, j = JArr l) \/ (exists l, j = JObj l) -> exists k', k = S k'.
  Proof. intros H [[l ->]|[l ->]]; cbn [nesting] in H; (destruct k as [|k]; [lia|eauto]). Qed.

  Lemma av_shows : forall t, addable t = true -> writable_type t = true -> describes m t -> forall v j ext k,
    wf_with rwf (erase t) v = true -> tdoc_with E rdoc t v = Ok j -> (nesting j <= k)%nat -> brief j ->
    shows E m k ext (abi_name t) (av t v) j.
  Proof.
    induction t as [b|t IH|t IH|tys IH|nm fs IH|a b IHa IHb|t IH| |t IH|names|k'] using jty_ind'; intros A W D v j ext k H J N B; try discriminate A;
      try (apply writes_self in W; discriminate W); pose proof (describes_self _ _ D) as T.
    - cbn [av]. apply scalar_wf in H. econstructor; [exact T|exact H|exact J].
    - cbn [addable] in A. apply andb_true_iff in A as [_ A]. destruct v as [| | | |l| |]; try discriminate H. cbn [erase wf_with] in H. apply andb_true_iff in H as [_ H].
      cbn [tdoc_with] in J. apply bind_Ok in J as (js & J & J'). assert (j = JArr js) by congruence. subst j. clear J'.
      destruct (nesting_S _ _ N (or_introl (ex_intro _ js eq_refl))) as [k0 ->]. cbn [av]. apply mapm_Ok in J.
      assert (L : List.length l = List.length js) by (clear - J; pose proof (F2_length _ _ _ J) as X; rewrite map_length in X; exact X).
      econstructor; [exact T|rewrite map_length, L; now apply brief_size|].
      assert (F : Forall (fun j => (nesting j <= k0)%nat /\ brief j) js) by (apply Forall_forall; intros j Hj; split; [eapply nesting_item; eauto|eapply brief_item; eauto]).
      clear L N B T. remember (map (tdoc_with E rdoc t) l) as rs eqn:Er. revert l Er H. induction J as [|r j rs js Hr J IHJ]; intros l Er H.
      + destruct l; [constructor|discriminate Er].
      + destruct l as [|x l]; [discriminate Er|]. cbn [map] in Er. assert (Er1 : r = tdoc_with E rdoc t x) by congruence. assert (Er2 : rs = map (tdoc_with E rdoc t) l) by congruence.
        cbn [forallb] in H. apply andb_true_iff in H as [H1 H2]. apply Forall_cons_iff in F as [[F1 F1'] F2]. cbn [map]. constructor; [|now apply IHJ].
        apply (IH A (writable_child (JVec t) t (or_introl eq_refl) W) (describes_child m (JVec t) t (or_introl eq_refl) D)); [exact H1|congruence|exact F1|exact F1'].
    - cbn [addable] in A. apply andb_true_iff in A as [_ A]. destruct v as [| | | | |[x|]|]; try discriminate H; cbn [erase wf_with] in H; cbn [tdoc_with] in J; cbn [av].
      + econstructor; [exact T|]. apply (IH A (writable_child (JOpt t) t (or_introl eq_refl) W) (describes_child m (JOpt t) t (or_introl eq_refl) D)); assumption.
      + assert (j = JNull) by congruence. subst j. econstructor; exact T.
    - cbn [addable] in A. destruct v as [| | | | | |i x]; try discriminate H. cbn [erase wf_with] in H. apply andb_true_iff in H as [Hi H].
      cbn [tdoc_with] in J. cbn [av]. rewrite !nthz_map in H. rewrite nthz_map in J. rewrite nthz_map.
      destruct (nthz tys i) as [t|] eqn:Nt; cbn [option_map] in *; [|discriminate H]. pose proof (nthz_In _ _ _ Nt) as Ht. apply bind_Ok in J as (j0 & J & J').
      assert (j = JArr [JStr (type_name t); j0]) by congruence. subst j. clear J'. rewrite Forall_forall in IH. rewrite forallb_forall in A. specialize (A t Ht). apply andb_true_iff in A as [_ A].
      pose proof (writable_child (JVariant tys) t Ht W) as Wt. destruct (nesting_S _ _ N (or_introl (ex_intro _ _ eq_refl))) as [k0 ->].
      rewrite <- (writes_name t (writes_self t Wt)). apply (shows_var E m k0 ext _ _ i (abi_name t) (abi_name t) _ _ T).
      + rewrite nthz_map, Nt. reflexivity.
      + unfold fits_u in Hi. lia.
      + apply (IH t Ht A Wt (describes_child m (JVariant tys) t Ht D)); [exact H|exact J|eapply nesting_item; [exact N|right; left; reflexivity]|eapply brief_item; [exact B|right; left; reflexivity]].
    - cbn [addable] in A. destruct v as [| | | |l| |]; try discriminate H. cbn [erase wf_with] in H. rewrite av_struct. rewrite tdoc_struct in J. apply bind_Ok in J as (ms & J & J').
      assert (j = JObj ms) by congruence. subst j. clear J'. destruct (nesting_S _ _ N (or_intror (ex_intro _ ms eq_refl))) as [k0 ->].
      econstructor; [exact T|].
      assert (Wc : forall f, In f fs -> writable_type (snd f) = true /\ describes m (snd f)).
      { intros f Hf. assert (Hc : In (snd f) (children (JStruct nm fs))) by (cbn [children]; now apply in_map). split; [eapply writable_child; eauto|eapply describes_child; eauto]. }
      assert (F : Forall (fun x => (nesting (snd x) <= k0)%nat /\ brief (snd x)) ms) by (apply Forall_forall; intros [x j] Hj; split; [eapply nesting_member; eauto|eapply brief_member; eauto]).
      clear W D N B T. revert l ms ext H J F A Wc. induction fs as [|f fs IHf]; intros l ms ext H J F A Wc.
      + destruct l; [|discriminate H]. cbn [go_doc] in J. assert (ms = []) by congruence. subst ms. constructor.
      + destruct l as [|x l]; [discriminate H|]. cbn [map forallb2] in H. apply andb_true_iff in H as [H1 H2]. cbn [forallb] in A. apply andb_true_iff in A as [A1 A2].
        apply Forall_cons_iff in IH as [IH1 IH2]. cbn [go_doc] in J. apply bind_Ok in J as (j & J1 & J). apply bind_Ok in J as (ms' & J2 & J). assert (ms = (fst f, j) :: ms') by congruence. subst ms.
        apply Forall_cons_iff in F as [[F1 F1'] F2]. cbn [snd] in F1, F1'. cbn [map avs]. destruct (Wc f (or_introl eq_refl)) as [Wf Df].
        constructor; [now apply IH1|]. now apply (IHf IH2 l ms' ext H2 J2 F2 A2 (fun g Hg => Wc g (or_intror Hg))).
    - cbn [av]. change (TStream) with (scalar_ty B_bytes) in H. cbn [erase] in H. destruct v as [| | |d| | |]; try discriminate H. cbn [tdoc_with] in J.
      econstructor; [exact T|exact H|exact J].
  Qed.
  Lemma no_extension t : describes m t -> writable_type t = true -> forall c, In c (children t) -> ~ extension_type m (abi_name c).
  Proof.
    intros D W c Hc [q Hq]. rewrite (describes_self m c (describes_child m t c Hc D)) in Hq. pose proof (writes_self c (writable_child t c Hc W)) as X.
    destruct c; try discriminate X; discriminate Hq.
  Qed.
  Lemma av_settled rest : forall t, addable t = true -> writable_type t = true -> describes m t -> forall v, wf_with rwf (erase t) v = true -> settled m rest (abi_name t) (av t v).
  Proof.
    induction t as [b|t IH|t IH|tys IH|nm fs IH|a b IHa IHb|t IH| |t IH|names|k'] using jty_ind'; intros A W D v H; try discriminate A;
      try (apply writes_self in W; discriminate W); pose proof (describes_self _ _ D) as T.
    - constructor.
    - destruct v as [| | | |l| |]; try discriminate H. constructor.
    - cbn [addable] in A. apply andb_true_iff in A as [_ A]. destruct v as [| | | | |[x|]|]; try discriminate H; cbn [av]; [|constructor].
      econstructor; [exact T|]. apply (IH A (writable_child (JOpt t) t (or_introl eq_refl) W) (describes_child m (JOpt t) t (or_introl eq_refl) D)); assumption.
    - cbn [addable] in A. destruct v as [| | | | | |i x]; try discriminate H. cbn [erase wf_with] in H. apply andb_true_iff in H as [Hi H].
      cbn [av]. rewrite !nthz_map in H. rewrite nthz_map. destruct (nthz tys i) as [t|] eqn:Nt; cbn [option_map] in *; [|discriminate H]. pose proof (nthz_In _ _ _ Nt) as Ht.
      rewrite Forall_forall in IH. rewrite forallb_forall in A. specialize (A t Ht). apply andb_true_iff in A as [_ A].
      eapply settled_var; [exact T|rewrite nthz_map, Nt; reflexivity|]. cbn [option_map].
      apply (IH t Ht A (writable_child (JVariant tys) t Ht W) (describes_child m (JVariant tys) t Ht D)). exact H.
    - cbn [addable] in A. destruct v as [| | | |l| |]; try discriminate H. cbn [erase wf_with] in H. rewrite av_struct. econstructor; [exact T|].
      assert (Wc : forall f, In f fs -> writable_type (snd f) = true /\ describes m (snd f) /\ ~ extension_type m (abi_name (snd f))).
      { intros f Hf. assert (Hc : In (snd f) (children (JStruct nm fs))) by (cbn [children]; now apply in_map). split; [eapply writable_child; eauto|]. split; [eapply describes_child; eauto|eapply no_extension; eauto]. }
      clear W D T. revert l H A Wc. induction fs as [|f fs IHf]; intros l H A Wc.
      + destruct l; [constructor|discriminate H].
      + destruct l as [|x l]; [discriminate H|]. cbn [map forallb2] in H. apply andb_true_iff in H as [H1 H2]. cbn [forallb] in A. apply andb_true_iff in A as [A1 A2].
        apply Forall_cons_iff in IH as [IH1 IH2]. cbn [map avs]. destruct (Wc f (or_introl eq_refl)) as (Wf & Df & Nf). constructor.
        * intros X. exfalso. apply Nf, X.
        * intros _. now apply IH1.
        * apply (IHf IH2 l H2 A2 (fun g Hg => Wc g (or_intror Hg))).
    - constructor.
  Qed.
  Lemma av_plain : forall t, addable t = true -> writable_type t = true -> forall v, wf_with rwf (erase t) v = true -> survives E t v -> plain E (av t v).
  Proof.
    induction t as [b|t IH|t IH|tys IH|nm fs IH|a b IHa IHb|t IH| |t IH|names|k'] using jty_ind'; intros A W v H S; try discriminate A;
      try (apply writes_self in W; discriminate W).
    - constructor. exact S.
    - cbn [addable] in A. apply andb_true_iff in A as [_ A]. destruct v as [| | | |l| |]; try discriminate H. cbn [erase wf_with] in H. apply andb_true_iff in H as [_ H].
      cbn [survives] in S. rewrite fold_and_In in S. cbn [av]. constructor. rewrite forallb_forall in H. rewrite Forall_forall in S |- *.
      intros y Hy. apply in_map_iff in Hy as (x & <- & Hx). exact (IH A (writable_child (JVec t) t (or_introl eq_refl) W) x (H x Hx) (S x Hx)).
    - cbn [addable] in A. apply andb_true_iff in A as [_ A]. destruct v as [| | | | |[x|]|]; try discriminate H; cbn [av]; [|constructor].
      cbn [survives] in S. destruct S as [_ S]. constructor. exact (IH A (writable_child (JOpt t) t (or_introl eq_refl) W) x H S).
    - cbn [addable] in A. destruct v as [| | | | | |i x]; try discriminate H. cbn [erase wf_with] in H. apply andb_true_iff in H as [Hi H].
      cbn [survives] in S. cbn [av]. rewrite !nthz_map in H. rewrite nthz_map in S. rewrite nthz_map. destruct (nthz tys i) as [t|] eqn:Nt; cbn [option_map] in *; [|discriminate H]. pose proof (nthz_In _ _ _ Nt) as Ht.
      rewrite Forall_forall in IH. rewrite forallb_forall in A. specialize (A t Ht). apply andb_true_iff in A as [_ A].
      constructor. exact (IH t Ht A (writable_child (JVariant tys) t Ht W) x H S).
    - cbn [addable] in A. destruct v as [| | | |l| |]; try discriminate H. cbn [erase wf_with] in H. rewrite av_struct. constructor. cbn [survives] in S.
      assert (Wc : forall f, In f fs -> writable_type (snd f) = true).
      { intros f Hf. assert (Hc : In (snd f) (children (JStruct nm fs))) by (cbn [children]; now apply in_map). eapply writable_child; eauto. }
      clear W. revert l H A S Wc. induction fs as [|f fs IHf]; intros l H A S Wc.
      + destruct l; constructor.
      + destruct l as [|x l]; [discriminate H|]. cbn [map forallb2] in H. apply andb_true_iff in H as [H1 H2]. cbn [forallb] in A. apply andb_true_iff in A as [A1 A2].
        apply Forall_cons_iff in IH as [IH1 IH2]. cbn [avs]. destruct S as [S1 S2]. constructor; [exact (IH1 A1 (Wc f (or_introl eq_refl)) x H1 S1)|].
        apply (IHf IH2 l H2 A2 S2 (fun g Hg => Wc g (or_intror Hg))).
    - constructor. exact Logic.I.
  Qed.
End Values.
