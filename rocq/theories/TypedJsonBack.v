(** * TypedJsonBack: what the native JSON writer prints is read back; the two layouts (proofs for C41, C42) *)
From Verif Require Import Base Stream StreamFacts TypedBin TypedSpec TypedBinFacts BinLemmas Decimal Hex Prop_Hex Name NameFacts Prop_Name Asset AssetFacts Prop_Asset
  Time TimeSpec TimeFacts Calendar TimeText Prop_Time Base58 Base58Facts Keys KeysFacts Prop_Keys JsonInt JsonIntFacts Prop_JsonInt Utf8 Json JsonSpec JsonStrFacts JsonWrite JsonPrint
  Abi AbiScalar AbiScalarFacts AbiRead AbiDoc AbiReadBack TypedJson TypedJsonSpec TypedJsonFacts TypedJsonRead.

(** ** Values which survive are printed *)
Lemma plain_prints E b v : ov E = Wrap -> scalar_ok b v -> plain_value E b v -> exists j, scalar_jv E b v = Ok j.
Proof.
  intros W H P. unfold scalar_ok in H.
  assert (U4 : forall z, int_ok false 4 z = true -> 0 <= z < 2 ^ 32).
  { intros z Hz. apply int_range in Hz. unfold tmin, tmax, tbits in Hz. change (8 * Z.of_nat 4) with 32 in Hz. lia. }
  assert (U8 : forall z, int_ok false 8 z = true -> 0 <= z < 2 ^ 64).
  { intros z Hz. apply int_range in Hz. unfold tmin, tmax, tbits in Hz. change (8 * Z.of_nat 8) with 64 in Hz. lia. }
  assert (S8 : forall z, int_ok true 8 z = true -> - 2 ^ 63 <= z < 2 ^ 63).
  { intros z Hz. apply int_range in Hz. unfold tmin, tmax, tbits in Hz. change (8 * Z.of_nat 8 - 1) with 63 in Hz. lia. }
  destruct b; cbn [scalar_ty] in H; destruct v; try discriminate H; cbn [scalar_jv plain_value] in *; try (eexists; reflexivity).
  - destruct P as (j & t & -> & _). eauto.
  - destruct P as (j & t & -> & _). eauto.
  - destruct P as [P1 P2]. destruct (C15_time_point z P1) as (t & T1 & _). rewrite W, T1. eexists; reflexivity.
  - destruct (C15_time_point_sec z (U4 z H)) as (t & T1 & _). rewrite W, T1. eexists; reflexivity.
  - destruct (C15_block_timestamp z (U4 z H)) as (t & T1 & _). rewrite W, T1. eexists; reflexivity.
  - destruct (C18_public_key_text _ H P) as (t & body & -> & _). eexists; reflexivity.
  - destruct (C18_private_key_text _ H) as (t & body & -> & _). eexists; reflexivity.
  - destruct (C18_signature_text _ H P) as (t & body & -> & _). eexists; reflexivity.
  - destruct l as [|[z| | | | | |] [|[z'| | | | | |] [|? ?]]]; try (cbn in H; rewrite ?andb_false_r in H; discriminate H).
    cbn [wf wf_with map forallb2] in H. apply andb_true_iff in H as [H1 H2]. apply andb_true_iff in H2 as [H2 _]. destruct P as [P1 P2].
    destruct (asset_back z z') as (t & T1 & T2 & T3); [pose proof (S8 z H1); lia|now apply U8|exact P2|]. rewrite T1. eexists; reflexivity.
Qed.

(** ** Documents of values are read back *)
Definition good (E : float_lib) (t : jty) (v : val) (j : jv) : Prop :=
  treads E t (jdefault t) j v /\ utf8_doc j /\ (j = JNull -> v = VOpt None).
Lemma fold_and_In {A} (P : A -> Prop) l : fold_right and True (map P l) <-> Forall P l.
Proof. induction l as [|x l IH]; cbn [map fold_right]; [split; auto|]. rewrite IH. split; [intros []; now constructor|]. intros H. now apply Forall_cons_iff in H. Qed.
Lemma set_nth_app l1 x l2 v : set_nth (l1 ++ x :: l2) (List.length l1) v = l1 ++ v :: l2.
Proof. induction l1 as [|y l1 IH]; cbn [app set_nth List.length]; [reflexivity|]. now rewrite IH. Qed.
Lemma first_named_app {A} (fs1 : list (bytes * A)) k a fs2 : NoDup (map fst (fs1 ++ (k, a) :: fs2)) -> first_named k (fs1 ++ (k, a) :: fs2) (List.length fs1) a.
Proof.
  intros D. split.
  - rewrite nth_error_app2 by lia. now rewrite Nat.sub_diag.
  - rewrite firstn_app, Nat.sub_diag, firstn_O, app_nil_r, firstn_all. rewrite map_app in D. cbn [map fst] in D.
    apply NoDup_remove_2 in D. intros X. apply D. apply in_or_app. now left.
Qed.
Section Back.
  Context (E : float_lib) (ref : nat -> val -> res jv) (rwf : nat -> val -> bool) (W : ov E = Wrap).
  Definition back_at (t : jty) : Prop := forall v, two_way t = true -> names_distinct t -> jwf_with rwf t v = true -> survives E t v ->
    exists j, tdoc_with E ref t v = Ok j /\ good E t v j.
  Lemma members_back : forall fs2 fs1 l1 l2, Forall (fun f => back_at (snd f)) fs2 ->
    NoDup (map fst (fs1 ++ fs2)) -> Forall (fun f => utf8 (fst f)) fs2 -> List.length l1 = List.length fs1 ->
    forallb (fun f => two_way (snd f)) fs2 = true -> Forall (fun f => names_distinct (snd f)) fs2 ->
    forallb2 (map (fun f => jwf_with rwf (snd f)) fs2) l2 = true ->
    (fix go (fs : list (bytes * jty)) (l : list val) {struct fs} : Prop :=
       match fs, l with f :: fs', x :: l' => survives E (snd f) x /\ go fs' l' | _, _ => True end) fs2 l2 ->
    exists ms, (fix go (fs : list (bytes * jty)) (l : list val) {struct fs} : res (list (bytes * jv)) :=
                      match fs, l with
                      | [], [] => Ok []
                      | f :: fs', x :: l' => let* j := tdoc_with E ref (snd f) x in let* ms := go fs' l' in Ok ((fst f, j) :: ms)
                      | _, _ => ill
                      end) fs2 l2 = Ok ms /\
      treads_members E (fs1 ++ fs2) (l1 ++ map (fun f => jdefault (snd f)) fs2) ms (l1 ++ l2) /\ Forall (fun x => utf8 (fst x) /\ utf8_doc (snd x)) ms.
  Proof.
    induction fs2 as [|[k t] fs2 IH]; intros fs1 l1 l2 B D U L T N Wf S.
    - destruct l2; [|discriminate]. exists []. split; [reflexivity|]. split; [constructor|constructor].
    - destruct l2 as [|x l2]; [discriminate|]. cbn [map forallb2 forallb snd fst] in *.
      apply andb_true_iff in Wf as [W1 W2]. apply andb_true_iff in T as [T1 T2]. apply Forall_cons_iff in B as [B1 B2]. apply Forall_cons_iff in U as [U1 U2].
      apply Forall_cons_iff in N as [N1 N2]. destruct S as [S1 S2]. cbn [snd fst] in *.
      destruct (B1 x T1 N1 W1 S1) as (j & Hj & R & Uj & _).
      destruct (IH (fs1 ++ [(k, t)]) (l1 ++ [x]) l2 B2) as (ms & Hm & Rm & Um).
      { now rewrite <- app_assoc. } { exact U2. } { rewrite !app_length. cbn [List.length]. lia. } { exact T2. } { exact N2. } { exact W2. } { exact S2. }
      exists ((k, j) :: ms). rewrite Hj. cbn [bind]. rewrite Hm. cbn [bind]. split; [reflexivity|]. split.
      + eapply (R_known E _ _ k j ms (List.length fs1) t (jdefault t) x).
        * now apply first_named_app.
        * rewrite <- L. rewrite nth_error_app2 by lia. now rewrite Nat.sub_diag.
        * exact R.
        * rewrite <- L, set_nth_app. rewrite <- !app_assoc in Rm. exact Rm.
      + constructor; [split; assumption|exact Um].
  Qed.
  Lemma type_names (ts : list jty) : map fst (map (fun t => (type_name t, t)) ts) = map type_name ts.
  Proof. rewrite map_map. reflexivity. Qed.
  Lemma tdoc_back : forall t, back_at t.
  Proof.
    induction t as [b|t IH|t IH|tys IH|nm fs IH|a b IHa IHb|t IH| |t IH|names|k] using jty_ind'; intros v T N Wf S; try discriminate T.
    - cbn [jwf_with survives tdoc_with] in *. destruct (plain_prints E b v W Wf S) as (j & J). exists j. split; [exact J|].
      destruct (scalar_reads_back E b v j W Wf S J) as [U [(-> & x & -> & ->)|(Nb & t & Ht & Hv)]].
      + split; [constructor|]. split; [exact U|discriminate].
      + split; [econstructor; eauto|]. split; [exact U|]. intros ->. discriminate.
    - destruct v as [| | | |l| |]; try discriminate Wf. cbn [jwf_with survives tdoc_with two_way names_distinct] in *.
      rewrite forallb_forall in Wf. apply fold_and_In in S.
      assert (K : exists js, mapm (map (tdoc_with E ref t) l) = Ok js /\ treads_all E t js l /\ Forall utf8_doc js).
      { induction l as [|x l IHl]; [exists []; split; [reflexivity|split; constructor]|]. apply Forall_cons_iff in S as [S1 S2].
        destruct (IH x T N (Wf x (or_introl eq_refl)) S1) as (j & Hj & R & U & _). destruct IHl as (js & Hjs & Rs & Us); [intros y Hy; apply Wf; now right|exact S2|].
        exists (j :: js). cbn [map mapm]. rewrite Hj. cbn [bind]. rewrite Hjs. cbn [bind]. split; [reflexivity|]. split; constructor; auto. }
      destruct K as (js & Hjs & Rs & Us). exists (JArr js). rewrite Hjs. split; [reflexivity|]. split; [|split; [now constructor|discriminate]].
      exact (R_vec E t [] js l Rs).
    - destruct v as [| | | | |[x|]|]; try discriminate Wf; cbn [jwf_with survives tdoc_with two_way names_distinct] in *.
      + destruct S as [S0 S]. destruct (IH x T N Wf S) as (j & Hj & R & U & NN). exists j. split; [exact Hj|].
        assert (Nj : j <> JNull) by (intros Q; specialize (NN Q); subst x; exact S0).
        split; [now constructor|]. split; [exact U|]. intros; congruence.
      + exists JNull. split; [reflexivity|]. split; [constructor|]. split; [constructor|reflexivity].
    - destruct v as [| | | | | |i x]; try discriminate Wf. cbn [jwf_with survives tdoc_with two_way names_distinct] in *.
      rewrite !nthz_map in *. destruct (nthz tys i) as [t|] eqn:Ni; [|discriminate]. cbn [option_map] in *.
      pose proof (nthz_In _ _ _ Ni) as Hin. rewrite forallb_forall in T. destruct N as (N1 & N2 & N3). apply fold_and_In in N3. rewrite Forall_forall in *.
      destruct (IH t Hin x (T t Hin) (N3 t Hin) Wf S) as (j & Hj & R & U & _). exists (JArr [JStr (type_name t); j]). rewrite Hj. split; [reflexivity|].
      assert (I0 : 0 <= i) by (clear - Ni; revert i Ni; induction tys as [|y l IH]; intros i Ni; [discriminate|]; cbn [nthz] in Ni; destruct (Z.eqb_spec i 0); [lia|]; apply IH in Ni; lia).
      assert (Nn : nth_error tys (Z.to_nat i) = Some t). { rewrite <- (Z2Nat.id i I0) in Ni. now rewrite nthz_nth in Ni. }
      split; [|split; [|discriminate]].
      + rewrite <- (Z2Nat.id i I0). eapply (R_variant E tys _ (JStr (type_name t)) (type_name t)); [reflexivity| |exact R].
        split; [now rewrite nth_error_map, Nn|]. rewrite firstn_map, type_names. 
        destruct (nth_error_split _ _ Nn) as (a & b & Q & La). rewrite <- La, Q. rewrite firstn_app, Nat.sub_diag, firstn_O, app_nil_r, firstn_all.
        rewrite Q, map_app in N1. cbn [map] in N1. apply NoDup_remove_2 in N1. intros X. apply N1. apply in_or_app. now left.
      + constructor. constructor; [|constructor; [exact U|constructor]]. constructor. apply N2. now apply in_map.
    - destruct v as [| | | |l| |]; try discriminate Wf. cbn [jwf_with survives tdoc_with two_way names_distinct] in *.
      destruct N as (N1 & N2 & N3). apply fold_and_In in N3.
      destruct (members_back fs [] [] l IH N1 N2 eq_refl T N3 Wf S) as (ms & Hm & R & U). exists (JObj ms). rewrite Hm. split; [reflexivity|].
      split; [|split; [now constructor|discriminate]]. cbn [app] in R. replace (jdefault (JStruct nm fs)) with (VList (map (fun f => jdefault (snd f)) fs)); [now constructor|].
      unfold jdefault. cbn [erase default_of]. now rewrite map_map.
  Qed.
End Back.

(** ** Documents of values can be written *)
Lemma scalar_hex_bytes d : bytes_ok d -> bytes_ok (hex d).
Proof. intros H. apply bytes_simple. now apply simple_hex. Qed.
Section Writable.
  Context (E : float_lib) (ref : nat -> val -> res jv) (rwf : nat -> val -> bool).
  Context (Href : forall n v j, rwf n v = true -> ref n v = Ok j -> writable j).
  Lemma tdoc_with_writable : forall t v j, names_bytes t -> jwf_with rwf t v = true -> tdoc_with E ref t v = Ok j -> writable j.
  Proof.
    induction t as [b|t IH|t IH|tys IH|nm fs IH|a b IHa IHb|t IH| |t IH|names|k] using jty_ind'; intros v j N Wf D; try discriminate D.
    - eapply scalar_writable; eauto.
    - destruct v as [| | | |l| |]; try discriminate Wf. cbn [jwf_with tdoc_with names_bytes] in *. apply bind_Ok in D as (js & D & Q).
      assert (j = JArr js) by congruence. subst j. constructor. clear Q. apply mapm_Ok in D.
      revert js D. induction l as [|x l IHl]; intros js D; inversion D; subst; constructor; cbn [forallb] in Wf; apply andb_true_iff in Wf as [W1 W2]; eauto.
    - destruct v as [| | | | |[x|]|]; try discriminate Wf; cbn [jwf_with tdoc_with names_bytes] in *; [eauto|]. assert (j = JNull) by congruence. subst j. constructor.
    - destruct v as [| | | | | |i x]; try discriminate Wf. cbn [jwf_with tdoc_with names_bytes] in *.
      rewrite !nthz_map in *. destruct (nthz tys i) as [t|] eqn:Ni; [|discriminate]. cbn [option_map] in *.
      apply nthz_In in Ni. destruct N as [N1 N2]. apply fold_and_In in N2. rewrite Forall_forall in *.
      apply bind_Ok in D as (j' & D & Q). assert (j = JArr [JStr (type_name t); j']) by congruence. subst j.
      constructor. constructor; [constructor; apply N1; now apply in_map|]. constructor; [|constructor]. eapply IH; eauto.
    - destruct v as [| | | |l| |]; try discriminate Wf. cbn [jwf_with tdoc_with names_bytes] in *. destruct N as [N1 N2]. apply fold_and_In in N2.
      apply bind_Ok in D as (ms & D & Q). assert (j = JObj ms) by congruence. subst j. constructor. clear Q.
      revert l ms Wf D. induction fs as [|[k t] fs IHf]; intros l ms Wf D; destruct l as [|x l]; try discriminate.
      + assert (ms = []) by congruence. subst. constructor.
      + cbn [map forallb2 fst snd] in *. apply andb_true_iff in Wf as [W1 W2]. apply Forall_cons_iff in IH as [I1 I2]. apply Forall_cons_iff in N1 as [A1 A2]. apply Forall_cons_iff in N2 as [B1 B2].
        cbn [fst snd] in *. apply bind_Ok in D as (j1 & D1 & D). apply bind_Ok in D as (ms' & D2 & D). assert (ms = (k, j1) :: ms') by congruence. subst ms.
        constructor; [split; [exact A1|]; cbn [snd]; eauto|]. eapply IHf; eauto.
    - destruct v; try discriminate Wf. cbn [jwf_with tdoc_with] in *. assert (j = JStr (hex s)) by congruence. subst j. constructor. apply scalar_hex_bytes. now apply bytes_okb_spec.
    - destruct v; try discriminate Wf. cbn [jwf_with tdoc_with names_bytes] in *. destruct (nthz names z) as [n|] eqn:Nz; [|discriminate].
      assert (j = JStr n) by congruence. subst j. constructor. apply nthz_In in Nz. rewrite Forall_forall in N. now apply N.
    - cbn [jwf_with tdoc_with] in *. eauto.
  Qed.
End Writable.
Lemma tdoc_writable E env : (forall n, names_bytes (env n)) -> forall fuel t v j, names_bytes t ->
  jwf env fuel t v = true -> tdoc E env fuel t v = Ok j -> writable j.
Proof.
  intros He. induction fuel as [|fuel IH]; intros t v j N Wf D.
  - eapply (tdoc_with_writable E (fun n v => Undef "stack") (fun n v => false)); eauto; discriminate.
  - eapply (tdoc_with_writable E (fun n v => tdoc E env fuel (env n) v) (fun n v => jwf env fuel (env n) v)); eauto.
Qed.

(** ** The indented layout *)
Lemma newline_ws n : ws (newline n).
Proof. unfold ws, newline. constructor; [auto|]. apply Forall_forall. intros x H. apply repeat_spec in H. subst. auto. Qed.
Lemma ws_nil : ws []. Proof. constructor. Qed.
Lemma layout_value : forall j, writable j -> exists c, clean j c /\ value_text false c (print j) /\ forall n, value_text false c (layout n j).
Proof.
  induction j as [| b | s | t | l IH | l IH] using jv_ind'; intros W; inversion W; subst.
  - exists JNull. repeat split; constructor.
  - exists (JBool b). split; [constructor|]. split; [destruct b; constructor|intros n; cbn [layout]; destruct b; constructor].
  - destruct (sanitized_total s H0) as [c Hc]. exists (JStr c). split; [constructor; auto|]. split; [apply to_json_string_value; auto|]. intros n. cbn [layout]. apply to_json_string_value; auto.
  - exists (JNum t). repeat split; intros; constructor; auto.
  - destruct (print_value (JArr l) W) as (c & C & T). exists c. split; [exact C|]. split; [exact T|]. intros n. clear T. inversion C as [| | | |? l' F|]; subst.
    destruct l as [|x l]; inversion F; subst; [apply (Vt_arr0 false []); constructor|].
    cbn [layout]. 
    assert (K : forall l l', l <> [] -> Forall2 clean l l' -> Forall (fun j => writable j -> exists c, clean j c /\ value_text false c (print j) /\ forall n, value_text false c (layout n j)) l ->
       Forall writable l -> items_text false l' (sep_concat (map (fun x => newline (n + 4) ++ layout (n + 4) x) l) ++ newline n)).
    { clear. intros l l' Nl F. induction F as [|x c l l' Hc F IHF]; intros I W; [congruence|].
      apply Forall_cons_iff in I as [I1 I2]. apply Forall_cons_iff in W as [W1 W2].
      destruct (I1 W1) as (c' & C' & _ & T). rewrite (clean_fun _ _ Hc _ C') in T. destruct l as [|y l].
      - inversion F; subst. cbn [map sep_concat]. rewrite <- app_assoc. constructor; [apply newline_ws|apply T|apply newline_ws].
      - cbn [map]. rewrite sep_concat_cons. specialize (IHF ltac:(discriminate) I2 W2). cbn [map] in IHF.
        pose proof (It_cons false c (newline (n + 4)) (layout (n + 4) x) [] l' _ (newline_ws _) (T _) ws_nil IHF) as R. cbn [app] in R.
        rewrite <- !app_assoc. exact R. }
    cbn [app]. rewrite app_assoc. apply Vt_arr. apply K; auto. discriminate.
  - destruct (print_value (JObj l) W) as (c & C & T). exists c. split; [exact C|]. split; [exact T|]. intros n. clear T. inversion C as [| | | | |? l' F]; subst.
    destruct l as [|x l]; inversion F; subst; [apply (Vt_obj0 false []); constructor|].
    cbn [layout]. 
    assert (K : forall (l l' : list (bytes * jv)), l <> [] -> Forall2 (fun x y => sanitized (fst x) (fst y) /\ clean (snd x) (snd y)) l l' ->
       Forall (fun x => writable (snd x) -> exists c, clean (snd x) c /\ value_text false c (print (snd x)) /\ forall n, value_text false c (layout n (snd x))) l ->
       Forall (fun x => bytes_ok (fst x) /\ writable (snd x)) l ->
       members_text false l' (sep_concat (map (fun kv => newline (n + 4) ++ to_json_string (fst kv) ++ str ": " ++ layout (n + 4) (snd kv)) l) ++ newline n)).
    { clear. intros l l' Nl F. induction F as [|x [k c] l l' [Hk Hc] F IHF]; intros I W; [congruence|]. cbn [fst snd] in Hk, Hc.
      apply Forall_cons_iff in I as [I1 I2]. apply Forall_cons_iff in W as [[B1 W1] W2].
      destruct (I1 W1) as (c' & C' & _ & T). rewrite (clean_fun _ _ Hc _ C') in T.
      pose proof (to_json_string_value _ _ B1 Hk) as Tk. destruct (str_value_text _ _ Tk) as (kt & Hkt & Ek).
      assert (Sp : ws [32]) by (constructor; auto; constructor).
      destruct l as [|y l].
      - inversion F; subst. cbn [map sep_concat]. rewrite Ek.
        pose proof (Mt_one false k c (newline (n + 4)) kt [] [32] (layout (n + 4) (snd x)) (newline n) (newline_ws _) Hkt ws_nil Sp (T _) (newline_ws _)) as R.
        repeat (rewrite <- app_assoc || cbn [app]). exact R.
      - cbn [map]. rewrite sep_concat_cons, Ek. specialize (IHF ltac:(discriminate) I2 W2). cbn [map] in IHF.
        pose proof (Mt_cons false k c (newline (n + 4)) kt [] [32] (layout (n + 4) (snd x)) [] l' _ (newline_ws _) Hkt ws_nil Sp (T _) ws_nil IHF) as R.
        repeat (rewrite <- app_assoc || cbn [app]). repeat (rewrite <- app_assoc in R || cbn [app] in R). exact R. }
    cbn [app]. rewrite app_assoc. apply Vt_obj. apply K; auto. discriminate.
Qed.

(** ** Without white space *)
Lemma strip_chars t r : Forall (fun c => c <> 34 /\ c <> 92) t -> strip Inside (t ++ r) = t ++ strip Inside r.
Proof.
  induction 1 as [|c t [H1 H2] _ IH]; [reflexivity|]. cbn [app strip]. replace (c =? 34) with false by lia. replace (c =? 92) with false by lia. now rewrite IH.
Qed.
Lemma hex4_chars u h : hex4 u h -> Forall (fun c => c <> 34 /\ c <> 92) h.
Proof. intros (a & b & c & d & va & vb & vc & vd & -> & A & B & C & D & _). unfold hexdigit in *. repeat constructor; lia. Qed.
Lemma strip_string lax s t : string_text lax s t -> forall r, strip Inside (t ++ 34 :: r) = t ++ 34 :: strip Outside r.
Proof.
  induction 1 as [|cp s t Sc H1 H2 H3 _ IH|e v s t Hs _ IH|u h s t Hh _ _ IH|u1 u2 h1 h2 s t H1 H2 _ _ _ IH|u h s t _ Hh _ _ IH]; intros r.
  - reflexivity.
  - rewrite <- !app_assoc. rewrite strip_chars; [now rewrite IH|]. destruct (utf8_enc_all cp Sc) as [[-> _]|F]; [repeat constructor; auto|].
    eapply Forall_impl; [|exact F]. cbv beta. intros; lia.
  - cbn [app]. cbn [strip Z.eqb Pos.eqb]. now rewrite IH.
  - cbn [app]. rewrite <- app_assoc. cbn [strip Z.eqb Pos.eqb]. rewrite strip_chars by (eapply hex4_chars; eauto). rewrite IH. now rewrite <- app_assoc.
  - cbn [app]. rewrite <- app_assoc. cbn [app]. rewrite <- app_assoc. cbn [strip Z.eqb Pos.eqb]. rewrite strip_chars by (eapply hex4_chars; eauto). cbn [strip Z.eqb Pos.eqb].
    rewrite strip_chars by (eapply hex4_chars; eauto). rewrite IH. rewrite <- app_assoc. cbn [app]. now rewrite <- app_assoc.
  - cbn [app]. rewrite <- app_assoc. cbn [strip Z.eqb Pos.eqb]. rewrite strip_chars by (eapply hex4_chars; eauto). rewrite IH. now rewrite <- app_assoc.
Qed.
Lemma strip_json_string s r : bytes_ok s -> strip Outside (to_json_string s ++ r) = to_json_string s ++ strip Outside r.
Proof.
  intros H. destruct (sanitized_total s H) as [c Hc]. destruct (str_value_text _ _ (to_json_string_value _ _ H Hc)) as (t & T & ->).
  cbn [app]. rewrite <- app_assoc. cbn [app]. cbn [strip Z.eqb Pos.eqb orb]. f_equal. rewrite (strip_string _ _ _ T). now rewrite <- app_assoc.
Qed.
Definition solid (t : bytes) : Prop := Forall (fun c => c <> 32 /\ c <> 9 /\ c <> 10 /\ c <> 13 /\ c <> 34) t.
Lemma strip_solid t r : solid t -> strip Outside (t ++ r) = t ++ strip Outside r.
Proof.
  induction 1 as [|c t (H1 & H2 & H3 & H4 & H5) _ IH]; [reflexivity|]. cbn [app strip].
  replace (c =? 32) with false by lia. replace (c =? 9) with false by lia. replace (c =? 10) with false by lia. replace (c =? 13) with false by lia. replace (c =? 34) with false by lia.
  cbn [orb]. now rewrite IH.
Qed.
Lemma solid_app a b : solid a -> solid b -> solid (a ++ b). Proof. intros. apply Forall_app. auto. Qed.
Definition solidb (t : bytes) : bool := forallb (fun c => negb ((c =? 32) || (c =? 9) || (c =? 10) || (c =? 13) || (c =? 34))) t.
Lemma solidb_spec t : solidb t = true -> solid t.
Proof. unfold solidb. rewrite forallb_forall. intros H. apply Forall_forall. intros c Hc. specialize (H c Hc). lia. Qed.
Lemma digits_solid d : digits d -> solid d.
Proof. intros H. eapply Forall_impl; [|exact H]. cbv beta. intros; lia. Qed.
Lemma number_solid t : number_fits t -> solid t.
Proof.
  intros (mi & i & f & e & (-> & M & I & F & X) & _). apply solid_app; [destruct M as [->| ->]; apply solidb_spec; reflexivity|].
  apply solid_app; [|apply solid_app].
  - destruct I as [->|(c & d & -> & Hc & Hd)]; [apply solidb_spec; reflexivity|]. constructor; [lia|now apply digits_solid].
  - destruct F as [->|(d & -> & _ & Hd)]; [constructor|]. constructor; [lia|now apply digits_solid].
  - destruct X as [->|(c & sg & d & -> & Hc & Hsg & _ & Hd)]; [constructor|]. constructor; [lia|].
    apply solid_app; [destruct Hsg as [->|[->| ->]]; apply solidb_spec; reflexivity|now apply digits_solid].
Qed.
Lemma strip_newline n r : strip Outside (newline n ++ r) = strip Outside r.
Proof. unfold newline. cbn [app strip Z.eqb Pos.eqb orb]. induction n as [|n IH]; [reflexivity|]. cbn [repeat app strip Z.eqb Pos.eqb orb]. exact IH. Qed.
Lemma strip_layout : forall j, writable j -> forall n r, strip Outside (layout n j ++ r) = print j ++ strip Outside r.
Proof.
  induction j as [| b | s | t | l IH | l IH] using jv_ind'; intros W n r; inversion W; subst.
  - reflexivity.
  - destruct b; reflexivity.
  - now apply strip_json_string.
  - cbn [layout print]. apply strip_solid. now apply number_solid.
  - destruct l as [|x l]; [reflexivity|]. cbn [layout print].
    assert (K : forall l, l <> [] -> Forall (fun j => writable j -> forall n r, strip Outside (layout n j ++ r) = print j ++ strip Outside r) l -> Forall writable l ->
       forall r, strip Outside (sep_concat (map (fun x => newline (n + 4) ++ layout (n + 4) x) l) ++ r) = sep_concat (map print l) ++ strip Outside r).
    { clear. induction l as [|x l IHl]; intros Nl I W r; [congruence|]. apply Forall_cons_iff in I as [I1 I2]. apply Forall_cons_iff in W as [W1 W2]. destruct l as [|y l].
      - cbn [map sep_concat]. rewrite <- app_assoc, strip_newline. now apply I1.
      - cbn [map]. rewrite !sep_concat_cons. rewrite <- !app_assoc, strip_newline, I1 by exact W1. f_equal. specialize (IHl ltac:(discriminate) I2 W2 r). cbn [map] in IHl.
        cbn [app]. cbn [strip Z.eqb Pos.eqb orb]. f_equal. exact IHl. }
    cbn [app]. cbn [strip Z.eqb Pos.eqb orb]. f_equal. rewrite <- !app_assoc. rewrite (K (x :: l) ltac:(discriminate) IH ltac:(assumption)). rewrite strip_newline. reflexivity.
  - destruct l as [|x l]; [reflexivity|]. cbn [layout print].
    assert (K : forall l, l <> [] -> Forall (fun x => writable (snd x) -> forall n r, strip Outside (layout n (snd x) ++ r) = print (snd x) ++ strip Outside r) l ->
       Forall (fun x : bytes * jv => bytes_ok (fst x) /\ writable (snd x)) l ->
       forall r, strip Outside (sep_concat (map (fun kv => newline (n + 4) ++ to_json_string (fst kv) ++ str ": " ++ layout (n + 4) (snd kv)) l) ++ r) =
            sep_concat (map (fun kv => to_json_string (fst kv) ++ [58] ++ print (snd kv)) l) ++ strip Outside r).
    { clear. induction l as [|x l IHl]; intros Nl I W r; [congruence|]. apply Forall_cons_iff in I as [I1 I2]. apply Forall_cons_iff in W as [[B1 W1] W2]. 
      assert (M : forall r, strip Outside (newline (n + 4) ++ to_json_string (fst x) ++ str ": " ++ layout (n + 4) (snd x) ++ r) = to_json_string (fst x) ++ [58] ++ print (snd x) ++ strip Outside r).
      { intros r0. rewrite strip_newline, strip_json_string by exact B1. f_equal. change (str ": ") with [58; 32]. cbn [app]. cbn [strip Z.eqb Pos.eqb orb]. f_equal. now apply I1. }
      destruct l as [|y l].
      - cbn [map sep_concat]. rewrite <- !app_assoc. apply M.
      - cbn [map]. rewrite !sep_concat_cons. rewrite <- !app_assoc, M. do 2 f_equal. specialize (IHl ltac:(discriminate) I2 W2 r). cbn [map] in IHl.
        f_equal. cbn [app]. cbn [strip Z.eqb Pos.eqb orb]. f_equal. exact IHl. }
    cbn [app]. cbn [strip Z.eqb Pos.eqb orb]. f_equal. rewrite <- !app_assoc. rewrite (K (x :: l) ltac:(discriminate) IH ltac:(assumption)). rewrite strip_newline. reflexivity.
Qed.
