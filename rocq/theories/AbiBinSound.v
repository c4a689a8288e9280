(** * Values, their forms and the recursive reader [bval] (proofs only) *)
From Verif Require Import Base Stream StreamFacts TypedBin TypedSpec TypedBinFacts TypedBinSound TypedBinLocal BinLemmas
  Json JsonSpec Keys Abi AbiSpec AbiFacts AbiLoad AbiScalar AbiScalarFacts AbiValue Machine AbiBin AbiBinFacts.

(** ** Type tables of loaded ABIs *)
Record sound_map (m : amap) : Prop := {
  sm_nodef : forall p d, afind p m = Some d -> is_def d = false;
  sm_ptr : forall p d q, afind p m = Some d -> In q (pointers d) -> exists e, afind q m = Some e /\ forall r, e <> AAlias r;
  sm_opt : forall p q e, afind p m = Some (AOptional q) -> afind q m = Some e -> is_optional_array_extension e = false;
  sm_arr : forall p q e, afind p m = Some (AArray q) -> afind q m = Some e -> is_optional_array_extension e = false;
  sm_ext : forall p q e, afind p m = Some (AExtension q) -> afind q m = Some e -> is_extension e = false
}.
Lemma faithful_sound a m : faithful a m -> sound_map m.
Proof.
  intros Fa. pose proof (faithful_inv _ _ Fa) as IV. destruct Fa as [A B]. constructor.
  - intros p d H. destruct (B p d H) as [D _]. destruct d; try reflexivity; contradiction.
  - intros p d q H Hq. destruct (B p d H) as [_ P]. rewrite Forall_forall in P. apply P. exact Hq.
  - intros p q e H He. destruct (B p _ H) as [(b & _ & _ & _ & PL) _]. exact (proj2 (is_plain_spec a m q e IV He) PL).
  - intros p q e H He. destruct (B p _ H) as [(b & _ & _ & _ & PL) _]. exact (proj2 (is_plain_spec a m q e IV He) PL).
  - intros p q e H He. destruct (B p _ H) as [(b & _ & _ & _ & PL) _]. exact (proj2 (is_extension_spec a m q e IV He) PL).
Qed.

(** A usable type. *)
Definition type_in (m : amap) (p : bytes) : Prop := exists e, afind p m = Some e /\ forall q, e <> AAlias q.

(** ** Emptiness and canonical forms *)
Lemma scalar_not_empty b x : from_bin key_env 0 (scalar_ty b) [] <> Ok x.
Proof. destruct b; discriminate. Qed.
Lemma vu_not_empty x : varuint32_from_bin [] <> Ok x.
Proof. discriminate. Qed.
Lemma scalar_no_maybe b : no_maybe (scalar_ty b) = true.
Proof. destruct b; reflexivity. Qed.
Lemma scalar_local b : local (from_bin key_env 0 (scalar_ty b)).
Proof. apply from_bin_local; [intros n; reflexivity|apply scalar_no_maybe]. Qed.
Lemma scalar_form b v : scalar_ok b v -> forall r, from_bin key_env 0 (scalar_ty b) (scalar_bytes b v ++ r) = Ok (v, r).
Proof.
  intros H. destruct (scalar_bytes_enc b v H) as (_ & _ & R). specialize (R [] (Forall_nil _)).
  apply scalar_local in R as (p & E & K). rewrite !app_nil_r in E. subst p. exact K.
Qed.
Lemma vu_form v : 0 <= v < 2 ^ 32 -> forall r, varuint32_from_bin (encv v ++ r) = Ok (v, r).
Proof.
  intros H. pose proof (varuint32_roundtrip v [] H (Forall_nil _)) as R.
  apply local_vu32 in R as (p & E & K). rewrite !app_nil_r in E. subst p. exact K.
Qed.

Section Facts.
  Variables (E : float_lib) (m : amap).
  Hypothesis SM : sound_map m.

  Scheme form_mut := Minimality for form Sort Prop with forms_mut := Minimality for forms Sort Prop.
  Combined Scheme form_mutind from form_mut, forms_mut.

  Lemma shows_form_enc : (forall k ext p v j, shows E m k ext p v j -> form v (enc v)) /\
    (forall k q l js, shows_items E m k q l js -> forms l (concat (map enc l))) /\
    (forall k ext fs l js, shows_fields E m k ext fs l js -> forms l (concat (map enc l))).
  Proof.
    apply shows_mutind; intros; cbn [enc map concat]; auto; try (constructor; auto).
    - now apply scalar_form.
    - apply vu_form. lia.
    - now apply vu_form.
  Qed.

  Lemma shows_empty : (forall k ext p v j, shows E m k ext p v j -> forall pre, form v pre -> (pre = [] <-> enc v = [])) /\
    (forall k q l js, shows_items E m k q l js -> forall pre, forms l pre -> True) /\
    (forall k ext fs l js, shows_fields E m k ext fs l js -> forall pre, forms l pre -> (pre = [] <-> concat (map enc l) = [])).
  Proof.
    apply shows_mutind.
    - intros k ext p b v j Hp Hv Hj pre F. inversion F as [b0 v0 p0 F0| | | | |]; subst. cbn [enc].
      pose proof (scalar_form b v Hv []) as F1. specialize (F0 []). rewrite app_nil_r in F0, F1.
      split; intros X; rewrite X in *; exfalso; eapply scalar_not_empty; eauto.
    - intros. inversion H0; subst. cbn [enc]. split; discriminate.
    - intros k ext p q v j Hp _ _ pre F. inversion F; subst. cbn [enc]. split; discriminate.
    - intros k ext p q v j Hp _ IH. exact IH.
    - intros k ext p q l js Hp Hl _ _ pre F. inversion F as [| | |l0 n p0 F0 F1| |]; subst. cbn [enc].
      split; intros X; apply app_eq_nil in X as [X _]; subst.
      + specialize (F0 []). cbn [app] in F0. exfalso. eapply vu_not_empty; eauto.
      + pose proof (vu_form (Z.of_nat (List.length l)) ltac:(lia) []) as F2. rewrite X in F2. exfalso. eapply vu_not_empty; eauto.
    - intros k ext p fs l js Hp _ IH pre F. inversion F; subst. cbn [enc]. auto.
    - intros k ext p fs i name q v j Hp Hn Hi _ _ pre F. inversion F as [| | | | |i0 v0 n p0 F0 F1]; subst. cbn [enc].
      split; intros X; apply app_eq_nil in X as [X _]; subst.
      + specialize (F0 []). exfalso. eapply vu_not_empty; eauto.
      + pose proof (vu_form i Hi []) as F2. rewrite X in F2. exfalso. eapply vu_not_empty; eauto.
    - auto.
    - auto.
    - intros. inversion H; subst. cbn. tauto.
    - intros. inversion H0; subst. cbn. tauto.
    - intros k ext name q fs v l j js _ IH1 _ IH2 pre F. inversion F; subst. cbn [map concat].
      specialize (IH1 _ H1). specialize (IH2 _ H3). split; intros X; apply app_eq_nil in X as [X1 X2].
      + rewrite (proj1 IH1 X1), (proj1 IH2 X2). reflexivity.
      + rewrite (proj2 IH1 X1), (proj2 IH2 X2). reflexivity.
  Qed.

  (** ** Equations of [bval] *)
  Notation bv := (bval E m).
  Definition bctx (k : nat) := match k with O => bfull | S k' => bcont m (bv k') end.
  Lemma bv_eq k : bv k = bchain E m (bctx k) chain_budget.
  Proof. apply bval_eq. Qed.

  Definition need (e : adata) : nat := match e with AOptional _ => 2 | AExtension _ => 3 | _ => 1 end.
  Lemma bchain_enough cont : forall c ext p bs e, afind p m = Some e -> (need e <= c)%nat -> bchain E m cont c ext p bs = bchain E m cont 3 ext p bs.
  Proof.
    assert (G1 : forall c ext p bs e, afind p m = Some e -> is_optional_array_extension e = false -> (1 <= c)%nat ->
              bchain E m cont c ext p bs = bchain E m cont 1 ext p bs).
    { intros [|c] ext p bs e Hp Hn Hc; [lia|]. cbn [bchain]. unfold deref. rewrite Hp. cbn [bind]. destruct e; try discriminate; reflexivity. }
    assert (G2 : forall c ext p bs e, afind p m = Some e -> is_extension e = false -> (2 <= c)%nat ->
              bchain E m cont c ext p bs = bchain E m cont 2 ext p bs).
    { intros [|[|c]] ext p bs e Hp Hn Hc; try lia. cbn [bchain]. unfold deref. rewrite Hp. cbn [bind]. destruct e; try discriminate; try reflexivity.
      destruct (from_bin key_env 0 TBool bs) as [[v r]|x|w]; cbn [bind]; try reflexivity. destruct v as [ |[]| | | | | ]; try reflexivity.
      destruct (sm_ptr m SM p _ p0 Hp ltac:(left; reflexivity)) as (e & He & _). fold (deref p0 m).
      change (bchain E m cont (S c) ext p0 r = bchain E m cont 1 ext p0 r).
      eapply G1; eauto; [|lia]. eapply sm_opt; eauto. }
    intros c ext p bs e Hp Hc. destruct e; cbn [need] in Hc;
      try (destruct c as [|c]; [lia|]; cbn [bchain]; unfold deref; rewrite Hp; reflexivity).
    - rewrite (G2 c ext p bs _ Hp eq_refl Hc). symmetry. apply (G2 3%nat ext p bs _ Hp eq_refl). lia.
    - destruct c as [|c]; [lia|]. cbn [bchain]. unfold deref. rewrite Hp. cbn [bind].
      destruct (sm_ptr m SM p _ p0 Hp ltac:(left; reflexivity)) as (e & He & _).
      change (bchain E m cont c ext p0 bs = bchain E m cont 2 ext p0 bs). eapply G2; eauto; [|lia]. eapply sm_ext; eauto.
  Qed.
  Lemma bv_chain k c ext p bs e : afind p m = Some e -> (need e <= c)%nat -> bchain E m (bctx k) c ext p bs = bv k ext p bs.
  Proof.
    intros Hp Hc. rewrite bv_eq. rewrite (bchain_enough _ c ext p bs e Hp Hc). symmetry. apply (bchain_enough _ _ _ _ _ e Hp).
    unfold chain_budget. destruct e; cbn; lia.
  Qed.
  Lemma bv_base k ext p bs b : afind p m = Some (ABuiltin b) ->
    bv k ext p bs = let* (v, r) := from_bin key_env 0 (scalar_ty b) bs in let* t := scalar_to_json E b v in Ok (t, r).
  Proof. intros Hp. rewrite bv_eq. unfold chain_budget. cbn [bchain]. unfold deref. rewrite Hp. reflexivity. Qed.
  Lemma bv_opt k ext p bs q : afind p m = Some (AOptional q) ->
    bv k ext p bs = let* (b, r) := read_u8 bs in
      if b =? 0 then Ok (str "null", r) else if b =? 1 then bv k ext q r else Undef "bool object with a representation other than 0 or 1".
  Proof.
    intros Hp. transitivity (bchain E m (bctx k) 4 ext p bs); [now rewrite bv_eq|]. cbn [bchain]. unfold deref at 1. rewrite Hp. cbn [bind].
    destruct bs as [|b r]; [reflexivity|]. cbn [from_bin from_bin_with read_u8 bind]. destruct (b =? 0); [reflexivity|].
    destruct (b =? 1); [|reflexivity]. cbn [bind]. 
    destruct (sm_ptr m SM p _ q Hp ltac:(left; reflexivity)) as (e & He & _).
    apply (bv_chain k 3 ext q r e He). pose proof (sm_opt m SM p q e Hp He). destruct e; cbn in *; lia || discriminate.
  Qed.
  Lemma bv_ext k ext p bs q : afind p m = Some (AExtension q) -> bv k ext p bs = bv k ext q bs.
  Proof.
    intros Hp. transitivity (bchain E m (bctx k) 4 ext p bs); [now rewrite bv_eq|]. cbn [bchain]. unfold deref at 1. rewrite Hp. cbn [bind].
    destruct (sm_ptr m SM p _ q Hp ltac:(left; reflexivity)) as (e & He & _).
    apply (bv_chain k 3 ext q bs e He). pose proof (sm_ext m SM p q e Hp He). destruct e; cbn in *; lia || discriminate.
  Qed.
  Definition container (d : adata) : bool := match d with AStruct _ | AArray _ | AVariant _ => true | _ => false end.
  Lemma bv_cont k ext p bs d : afind p m = Some d -> container d = true -> bv k ext p bs = bctx k ext d bs.
  Proof. intros Hp Hd. rewrite bv_eq. unfold chain_budget. cbn [bchain]. unfold deref. rewrite Hp. cbn [bind]. destruct d; try discriminate; reflexivity. Qed.

  (** ** Completeness *)
  Fixpoint seps (first : bool) (l : list bytes) : bytes :=
    match l with
    | [] => []
    | x :: l' => (if first then [] else [44]) ++ x ++ seps false l'
    end.
  Lemma seps_true l : seps true l = sep_concat l.
  Proof.
    destruct l as [|x l]; [reflexivity|]. cbn [seps app]. revert x. induction l as [|y l IH]; intros x; [now rewrite app_nil_r|].
    cbn [seps sep_concat]. rewrite IH. reflexivity.
  Qed.
  Definition item (kv : bytes * jv) : bytes := to_json_string (fst kv) ++ [58] ++ print (snd kv).
  Lemma print_obj js : print (JObj js) = [123] ++ seps true (map item js) ++ [125].
  Proof. now rewrite seps_true. Qed.
  Lemma print_arr js : print (JArr js) = [91] ++ seps true (map print js) ++ [93].
  Proof. now rewrite seps_true. Qed.

  Lemma settled_ext_inv rest p q v : afind p m = Some (AExtension q) -> settled m rest p v -> settled m rest q v.
  Proof.
    intros Hp H. inversion H; subst; try congruence; try constructor.
  Qed.
  Lemma shows_type k ext p v j : shows E m k ext p v j -> exists e, afind p m = Some e.
  Proof. inversion 1; subst; eauto. Qed.
  Lemma is_ext_true q : extension_type m q -> is_ext_type m q = Ok true.
  Proof. intros [x Hx]. unfold is_ext_type, deref. rewrite Hx. reflexivity. Qed.
  Lemma is_ext_type_spec q x : is_ext_type m q = Ok x -> (x = true <-> extension_type m q).
  Proof.
    unfold is_ext_type, deref, extension_type. destruct (afind q m) as [d|]; [|discriminate]. cbn [bind]. intros H.
    assert (x = is_extension d) by congruence. subst x. destruct d; cbn; split; intros; try discriminate; try (destruct H0; discriminate); eauto.
  Qed.
  Lemma bfields_skip rec fs first : Forall (fun x => extension_type m (snd x)) fs -> bfields m rec true fs first [] = Ok ([], []).
  Proof.
    intros H. revert first. induction H as [|[n q] fs Hq _ IH]; intros first; [reflexivity|]. cbn [bfields snd] in *.
    rewrite (is_ext_true q Hq). cbn [bind beq andb]. apply IH.
  Qed.

  Lemma bv_complete : (forall k ext p v j, shows E m k ext p v j -> forall pre rest, form v pre -> (ext = true -> settled m rest p v) ->
      bv k ext p (pre ++ rest) = Ok (print j, rest)) /\
    (forall k q l js, shows_items E m k q l js -> forall pre rest pos, forms l pre -> 0 <= pos -> pos + Z.of_nat (List.length l) < 2 ^ 31 ->
      bitems (bv k) q (List.length l) pos (pre ++ rest) = Ok (seps (pos =? 0) (map print js), rest)) /\
    (forall k ext fs l js, shows_fields E m k ext fs l js -> forall pre rest first, forms l pre -> (ext = true -> settled_fields m rest fs l) ->
      bfields m (bv k) ext fs first (pre ++ rest) = Ok (seps first (map item js), rest)).
  Proof.
    apply shows_mutind.
    - intros k ext p b v j Hp Hv Hj pre rest F _. inversion F as [b0 v0 p0 F0| | | | |]; subst.
      rewrite (bv_base k ext p _ b Hp), F0. cbn [bind]. rewrite (scalar_to_json_spec E b v Hv), Hj. reflexivity.
    - intros k ext p q Hp pre rest F _. inversion F; subst. rewrite (bv_opt k ext p _ q Hp). reflexivity.
    - intros k ext p q v j Hp _ IH pre rest F S0. inversion F; subst. rewrite (bv_opt k ext p _ q Hp). cbn [app read_u8 bind Z.eqb].
      change (1 =? 0) with false. cbn [Pos.eqb]. apply IH; auto. intros X. specialize (S0 X). inversion S0; subst; try congruence.
    - intros k ext p q v j Hp _ IH pre rest F S0. rewrite (bv_ext k ext p _ q Hp). apply IH; auto. intros X. eapply settled_ext_inv; eauto.
    - intros k ext p q l js Hp Hl _ IH pre rest F _. inversion F as [| | |l0 n p0 F0 F1| |]; subst.
      rewrite (bv_cont (S k) ext p _ _ Hp eq_refl). cbn [bctx bcont]. rewrite <- app_assoc, F0. cbn [bind]. rewrite Nat2Z.id.
      rewrite (IH p0 rest 0 F1 ltac:(lia) ltac:(lia)). cbn [bind]. rewrite print_arr. reflexivity.
    - intros k ext p fs l js Hp _ IH pre rest F S0. inversion F; subst.
      rewrite (bv_cont (S k) ext p _ _ Hp eq_refl). cbn [bctx bcont].
      rewrite (IH pre rest true H0). { cbn [bind]. rewrite print_obj. reflexivity. }
      intros X. specialize (S0 X). inversion S0; subst; try congruence.
    - intros k ext p fs i name q v j Hp Hn Hi _ IH pre rest F S0. inversion F as [| | | | |i0 v0 n p0 F0 F1]; subst.
      rewrite (bv_cont (S k) ext p _ _ Hp eq_refl). cbn [bctx bcont]. rewrite <- app_assoc, F0. cbn [bind]. rewrite Hn.
      rewrite (IH p0 rest F1). { cbn [bind]. rewrite print_arr. cbn [map seps print]. now rewrite !app_nil_r, <- !app_assoc. }
      intros X. specialize (S0 X). inversion S0; subst; try congruence.
    - intros k q pre rest pos F Hp Hl. inversion F; subst. cbn [List.length bitems]. destruct (Z.ltb_spec pos (2 ^ 31)); [|cbn in Hl; lia]. reflexivity.
    - intros k q v l j js _ IH1 _ IH2 pre rest pos F Hp Hl. inversion F; subst. cbn [List.length] in *. cbn [bitems].
      destruct (Z.ltb_spec pos (2 ^ 31)); [|lia]. cbn [bind]. rewrite <- app_assoc, (IH1 p (q0 ++ rest) H1 ltac:(discriminate)). cbn [bind].
      rewrite (IH2 q0 rest (pos + 1) H3 ltac:(lia) ltac:(lia)). cbn [bind]. destruct (Z.eqb_spec (pos + 1) 0); [lia|]. reflexivity.
    - intros k ext pre rest first F _. inversion F; subst. reflexivity.
    - intros k f fs Hf pre rest first F S0. inversion F; subst. specialize (S0 eq_refl). inversion S0; subst. cbn [app map seps].
      apply bfields_skip. exact Hf.
    - intros k ext name q fs v l j js Sh IH1 Sf IH2 pre rest first F S0. inversion F; subst. cbn [bfields map seps].
      destruct (shows_type _ _ _ _ _ Sh) as [e He]. assert (exists x, is_ext_type m q = Ok x) as [x Hx] by (unfold is_ext_type, deref; rewrite He; cbn; eauto).
      rewrite Hx. cbn [bind].
      assert (B : beq ((p ++ q0) ++ rest) [] && x && ext = false).
      { destruct ext; [|now rewrite andb_false_r]. rewrite andb_true_r. destruct x; [|now rewrite andb_false_r]. rewrite andb_true_r.
        specialize (S0 eq_refl). inversion S0 as [| |? ? ? ? ? G1 G2 G3]; subst. specialize (G1 (proj1 (is_ext_type_spec q true Hx) eq_refl)).
        destruct (beq ((p ++ q0) ++ rest) []) eqn:B; [|reflexivity]. apply beq_eq in B. apply app_eq_nil in B as [B1 B2].
        apply app_eq_nil in B1 as [B1 B3]. exfalso. apply G1. subst. cbn [map concat]. rewrite app_nil_r.
        destruct shows_empty as (Em & _ & Ef). rewrite (proj1 (Em _ _ _ _ _ Sh [] H1) eq_refl). cbn [app].
        exact (proj1 (Ef _ _ _ _ _ Sf [] H3) eq_refl). }
      rewrite B. clear B. rewrite <- app_assoc, (IH1 p (q0 ++ rest) H1).
      + cbn [bind]. rewrite (IH2 q0 rest false H3). { cbn [bind]. unfold item at 2. cbn [fst snd]. rewrite <- !app_assoc. reflexivity. }
        intros X. specialize (S0 X). inversion S0; subst; auto.
      + intros X. apply andb_true_iff in X as [X1 X2]. specialize (S0 X1). destruct fs; [|discriminate]. inversion S0 as [| |? ? ? ? ? G1 G2 G3]; subst.
        inversion G3; subst. inversion H3; subst. cbn [app]. auto.
  Qed.

  (** ** Soundness *)
  Definition bin_errors : list error := decode_errors ++ [E_recursion_limit_reached] ++ print_errors.
  Definition bin_hazards : list string := [bool_hazard; "signed overflow"%string; "buffer overflow"%string].
  Definition small (bs : bytes) : Prop := bytes_ok bs /\ Z.of_nat (List.length bs) < 2 ^ 32.
  Lemma small_app a b : small (a ++ b) -> small a /\ small b.
  Proof. unfold small. rewrite app_length. intros [H1 H2]. apply bytes_ok_app in H1. split; split; try tauto; lia. Qed.
  Definition read_ok (P : bytes -> bytes -> Prop) (x : res (bytes * bytes)) : Prop :=
    match x with
    | Ok (t, rest) => P t rest
    | Err e => In e bin_errors
    | Undef w => In w bin_hazards
    end.
  Definition reads_value k ext p bs (t rest : bytes) : Prop := exists v pre j, bs = pre ++ rest /\ shows E m k ext p v j /\ form v pre /\
    t = print j /\ (ext = true -> settled m rest p v).
  Definition reader_ok k := forall ext p bs, type_in m p -> small bs -> read_ok (reads_value k ext p bs) (bv k ext p bs).

  Lemma decode_error_in e : In e decode_errors -> In e bin_errors.
  Proof. intros H. apply in_or_app. left. exact H. Qed.
  Lemma print_error_in e : In e print_errors -> In e bin_errors.
  Proof. intros H. apply in_or_app. right. apply in_or_app. right. exact H. Qed.
  Lemma limit_in : In E_recursion_limit_reached bin_errors.
  Proof. apply in_or_app. right. apply in_or_app. left. left. reflexivity. Qed.
  Lemma bool_in : In bool_hazard bin_hazards. Proof. left; reflexivity. Qed.
  Lemma print_hazard_in w : In w print_hazards -> In w bin_hazards. Proof. intros H. right. exact H. Qed.
  Lemma overflow_in : In "signed overflow"%string bin_hazards. Proof. right; left; reflexivity. Qed.

  Lemma vu_read bs : small bs -> match varuint32_from_bin bs with
    | Ok (n, r) => exists p, bs = p ++ r /\ (forall r', varuint32_from_bin (p ++ r') = Ok (n, r')) /\ 0 <= n < 2 ^ 32
    | Err e => In e bin_errors | Undef w => False end.
  Proof.
    intros [Hb Hl]. pose proof (native_decode_sound key_env 0 TVaruint32 bs (fun _ => eq_refl) eq_refl Hb Hl) as N.
    cbn [from_bin from_bin_with] in N.
    destruct (varuint32_from_bin bs) as [[n r]|e|w] eqn:V; cbn [bind] in N.
    - destruct (local_vu32 _ _ _ V) as (p & Ep & K). exists p. split; [exact Ep|]. split; [exact K|].
      destruct N as [_ N]. cbn [wf wf_with] in N. unfold fits_u in N. lia.
    - apply decode_error_in. exact N.
    - eapply vu32_no_undef; eauto.
  Qed.

  Definition trail (fs : list (bytes * bytes)) : Prop := forall f gs1 gs2, fs = gs1 ++ f :: gs2 -> extension_type m (snd f) ->
    Forall (fun x => extension_type m (snd x)) gs2.
  Lemma trail_tail f fs : trail (f :: fs) -> trail fs.
  Proof. intros H g gs1 gs2 -> Hg. apply (H g (f :: gs1) gs2); auto. Qed.
  Lemma type_in_ext_type p : type_in m p -> exists x, is_ext_type m p = Ok x.
  Proof. intros (e & He & _). unfold is_ext_type, deref. rewrite He. cbn. eauto. Qed.

  Lemma bfields_sound k ext : reader_ok k -> forall fs first bs, trail fs -> Forall (fun f => type_in m (snd f)) fs -> small bs ->
    read_ok (fun t rest => exists l pre js, bs = pre ++ rest /\ shows_fields E m k ext fs l js /\ forms l pre /\
      t = seps first (map item js) /\ (ext = true -> settled_fields m rest fs l)) (bfields m (bv k) ext fs first bs).
  Proof.
    intros R. induction fs as [|[name q] fs IH]; intros first bs T P Hs.
    - cbn [bfields read_ok]. exists [], [], []. split; [reflexivity|]. split; [constructor|]. split; [constructor|]. split; [reflexivity|]. intros; constructor.
    - inversion P as [|? ? Pq Pf]; subst. cbn [snd] in Pq. cbn [bfields]. destruct (type_in_ext_type q Pq) as [x Hx]. rewrite Hx. cbn [bind].
      destruct (beq bs [] && x && ext) eqn:B.
      + apply andb_true_iff in B as [B ->]. apply andb_true_iff in B as [B Hx']. apply beq_eq in B. subst bs x.
        assert (Q : extension_type m q) by (apply (is_ext_type_spec q true Hx); reflexivity).
        assert (F : Forall (fun x => extension_type m (snd x)) fs) by (apply (T (name, q) [] fs); auto).
        rewrite bfields_skip by exact F. cbn [read_ok]. exists [], [], []. split; [reflexivity|]. split; [constructor; constructor; auto|].
        split; [constructor|]. split; [reflexivity|]. intros _. constructor. reflexivity.
      + pose proof (R (ext && is_nil fs) q bs Pq Hs) as RV. destruct (bv k (ext && is_nil fs) q bs) as [[o r]|e|w]; cbn [bind read_ok] in *; auto.
        destruct RV as (v & pre & j & -> & Sv & Fv & -> & Se). destruct (small_app _ _ Hs) as [_ Hr].
        specialize (IH false r (trail_tail _ _ T) Pf Hr). destruct (bfields m (bv k) ext fs false r) as [[o' rest]|e|w]; cbn [bind read_ok] in *; auto.
        destruct IH as (l & pre2 & js & -> & Sl & Fl & -> & Sf). exists (v :: l), (pre ++ pre2), ((name, j) :: js).
        split; [now rewrite app_assoc|]. split; [constructor; auto|]. split; [constructor; auto|].
        split; [cbn [map seps]; unfold item at 2; cbn [fst snd]; now rewrite <- !app_assoc|].
        intros ->. constructor; [| |auto].
        * intros Q N. apply app_eq_nil in N as [N ->]. cbn [map concat] in N. apply app_eq_nil in N as [N1 N2].
          destruct shows_empty as (Em & _ & Ef). apply (Em _ _ _ _ _ Sv _ Fv) in N1. apply (Ef _ _ _ _ _ Sl _ Fl) in N2. subst pre pre2.
          apply (is_ext_type_spec q x Hx) in Q. subst x. cbn in B. discriminate.
        * intros ->. cbn [is_nil andb] in Se. specialize (Se eq_refl). inversion Sl; subst. inversion Fl; subst. exact Se.
  Qed.
  Lemma bitems_sound k q : reader_ok k -> type_in m q -> forall n pos bs, 0 <= pos -> small bs ->
    read_ok (fun t rest => exists l pre js, bs = pre ++ rest /\ shows_items E m k q l js /\ forms l pre /\ List.length l = n /\
      pos + Z.of_nat n < 2 ^ 31 /\ t = seps (pos =? 0) (map print js)) (bitems (bv k) q n pos bs).
  Proof.
    intros R Pq. induction n as [|n IH]; intros pos bs Hp Hs; cbn [bitems]; destruct (Z.ltb_spec pos (2 ^ 31)) as [Lp|Lp]; cbn [bind read_ok]; try exact overflow_in.
    - exists [], [], []. split; [reflexivity|]. split; [constructor|]. split; [constructor|]. split; [reflexivity|]. split; [lia|reflexivity].
    - pose proof (R false q bs Pq Hs) as RV. destruct (bv k false q bs) as [[o r]|e|w]; cbn [bind read_ok] in *; auto.
      destruct RV as (v & pre & j & -> & Sv & Fv & -> & _). destruct (small_app _ _ Hs) as [_ Hr].
      specialize (IH (pos + 1) r ltac:(lia) Hr). destruct (bitems (bv k) q n (pos + 1) r) as [[o' rest]|e|w]; cbn [bind read_ok] in *; auto.
      destruct IH as (l & pre2 & js & -> & Sl & Fl & Ll & Lt & ->). exists (v :: l), (pre ++ pre2), (j :: js).
      split; [now rewrite app_assoc|]. split; [constructor; auto|]. split; [constructor; auto|]. split; [cbn; lia|]. split; [lia|].
      cbn [map seps]. destruct (Z.eqb_spec (pos + 1) 0); [lia|]. reflexivity.
  Qed.

  Hypothesis TR : trailing_extensions m.

  Lemma struct_trail p fs : afind p m = Some (AStruct fs) -> trail fs.
  Proof. intros Hp f gs1 gs2 Hf Hx. eapply TR; eauto. Qed.
  Lemma ptr_in p d q : afind p m = Some d -> In q (pointers d) -> type_in m q.
  Proof. intros Hp Hq. exact (sm_ptr m SM p d q Hp Hq). Qed.
  Lemma nthz_In {A} (l : list A) : forall i x, nthz l i = Some x -> In x l.
  Proof. induction l as [|y l IH]; intros i x H; [discriminate|]. cbn [nthz] in H. destruct (i =? 0); [left; congruence|right; eauto]. Qed.

  Lemma bv_close k : (forall ext p bs d, afind p m = Some d -> container d = true -> small bs -> read_ok (reads_value k ext p bs) (bv k ext p bs)) ->
    reader_ok k.
  Proof.
    intros CONT.
    assert (BASE : forall ext p bs b, afind p m = Some (ABuiltin b) -> small bs -> read_ok (reads_value k ext p bs) (bv k ext p bs)).
    { intros ext p bs b Hp Hs; rewrite (bv_base _ ext p bs b Hp); destruct Hs as [Hb Hl];
      pose proof (native_decode_sound key_env 0 (scalar_ty b) bs (fun _ => eq_refl) (scalar_ty_ok b) Hb Hl) as N;
      destruct (from_bin key_env 0 (scalar_ty b) bs) as [[v r]|e|w] eqn:F; cbn [bind read_ok];
      [|apply decode_error_in; exact N|apply scalar_read_undef in F; subst w; exact bool_in];
      destruct N as [_ W]; rewrite (scalar_to_json_spec E b v W); pose proof (scalar_jv_outcome E b v W) as O;
      destruct (scalar_jv E b v) as [j|e|w] eqn:J; cbn [bind read_ok]; [|apply print_error_in; exact O|apply print_hazard_in; exact O];
      destruct (scalar_local b _ _ _ F) as (pre & Ep & K); exists (AVBase b v), pre, j; split; [exact Ep|];
      split; [eapply shows_base; eauto|]; split; [constructor; exact K|]; split; [reflexivity|]; intros; constructor. }
    assert (PLAIN : forall ext p bs d, afind p m = Some d -> is_optional_array_extension d = false \/ container d = true -> (forall q, d <> AAlias q) -> small bs ->
              read_ok (reads_value k ext p bs) (bv k ext p bs)).
    { intros ext p bs d Hp Hd Ha Hs. pose proof (sm_nodef m SM p d Hp) as ND.
      destruct d; try discriminate ND; try (destruct Hd; discriminate); eauto. exfalso. eapply Ha; eauto. }
    assert (OPT : forall ext p bs d, afind p m = Some d -> is_extension d = false -> (forall q, d <> AAlias q) -> small bs ->
              read_ok (reads_value k ext p bs) (bv k ext p bs)).
    { intros ext p bs d Hp Hd Ha Hs.
      destruct d; try discriminate Hd; try (eapply PLAIN; eauto; fail); try (eapply CONT; eauto; fail).
      rewrite (bv_opt k ext p bs p0 Hp). destruct bs as [|b r]; cbn [read_u8 bind read_ok]; [apply decode_error_in; left; reflexivity|].
      destruct (Z.eqb_spec b 0) as [->|N0].
      - cbn [read_ok]. exists AVNone, [0], JNull. split; [reflexivity|]. split; [eapply shows_none; eauto|]. split; [constructor|]. split; [reflexivity|]. intros; constructor.
      - destruct (Z.eqb_spec b 1) as [->|N1]; [|exact bool_in].
        destruct (ptr_in p _ p0 Hp ltac:(left; reflexivity)) as (e & He & Hea).
        pose proof (sm_opt m SM p p0 e Hp He) as Hopt. destruct (small_app [1] r Hs) as [_ Hr].
        pose proof (PLAIN ext p0 r e He (or_introl Hopt) Hea Hr) as P. destruct (bv k ext p0 r) as [[t rest]|x|w]; cbn [read_ok] in *; auto.
        destruct P as (v & pre & j & -> & Sv & Fv & -> & Se). exists (AVSome v), (1 :: pre), j. split; [reflexivity|].
        split; [eapply shows_some; eauto|]. split; [constructor; auto|]. split; [reflexivity|]. intros X. eapply settled_some; eauto. }
    intros ext p bs (d & Hp & Ha) Hs. destruct (is_extension d) eqn:Hd; [|eapply OPT; eauto].
    destruct d; try discriminate Hd. rewrite (bv_ext k ext p bs p0 Hp).
    destruct (ptr_in p _ p0 Hp ltac:(left; reflexivity)) as (e & He & Hea).
    pose proof (OPT ext p0 bs e He (sm_ext m SM p p0 e Hp He) Hea Hs) as P. destruct (bv k ext p0 bs) as [[t rest]|x|w]; cbn [read_ok] in *; auto.
    destruct P as (v & pre & j & -> & Sv & Fv & -> & Se). exists v, pre, j. split; [reflexivity|].
    split; [eapply shows_ext; eauto|]. split; [exact Fv|]. split; [reflexivity|]. intros X. eapply settled_ext; eauto.
  Qed.

  Lemma bv_sound : forall k, reader_ok k.
  Proof.
    induction k as [|k IH]; apply bv_close; intros ext p bs d Hp Hd Hs; rewrite (bv_cont _ ext p bs d Hp Hd); cbn [bctx].
    - destruct d; try discriminate; cbn [bfull]; try exact limit_in.
      pose proof (vu_read bs Hs) as V. destruct (varuint32_from_bin bs) as [[n r]|e|w]; cbn [bind read_ok]; [exact limit_in|exact V|contradiction].
    - destruct d; try discriminate; cbn [bcont].
      + pose proof (vu_read bs Hs) as V. destruct (varuint32_from_bin bs) as [[n r]|e|w]; cbn [bind read_ok]; [|exact V|contradiction].
        destruct V as (pn & -> & Kn & Hn). destruct (small_app _ _ Hs) as [_ Hr].
        pose proof (bitems_sound k p0 IH (ptr_in p _ p0 Hp ltac:(left; reflexivity)) (Z.to_nat n) 0 r ltac:(lia) Hr) as B.
        destruct (bitems (bv k) p0 (Z.to_nat n) 0 r) as [[o rest]|e|w]; cbn [bind read_ok] in *; auto.
        destruct B as (l & pre & js & -> & Sl & Fl & Ll & Lt & ->). exists (AVList l), (pn ++ pre), (JArr js).
        split; [now rewrite app_assoc|]. split; [eapply shows_list; eauto; lia|]. split; [constructor; auto; rewrite Ll, Z2Nat.id by lia; exact Kn|].
        split; [rewrite print_arr; reflexivity|]. intros; constructor.
      + pose proof (bfields_sound k ext IH fields true bs (struct_trail p fields Hp)) as B.
        assert (P : Forall (fun f => type_in m (snd f)) fields).
        { apply Forall_forall. intros f Hf. apply (ptr_in p _ (snd f) Hp). cbn [pointers]. now apply in_map. }
        specialize (B P Hs). destruct (bfields m (bv k) ext fields true bs) as [[o rest]|e|w]; cbn [bind read_ok] in *; auto.
        destruct B as (l & pre & js & -> & Sl & Fl & -> & Se). exists (AVStruct l), pre, (JObj js). split; [reflexivity|].
        split; [eapply shows_struct; eauto|]. split; [constructor; auto|]. split; [rewrite print_obj; reflexivity|].
        intros X. eapply settled_struct; eauto.
      + pose proof (vu_read bs Hs) as V. destruct (varuint32_from_bin bs) as [[n r]|e|w]; cbn [bind read_ok]; [|exact V|contradiction].
        destruct V as (pn & -> & Kn & Hn). destruct (small_app _ _ Hs) as [_ Hr].
        destruct (nthz fields n) as [[name q]|] eqn:N; [|apply decode_error_in; right; right; right; left; reflexivity].
        assert (Pq : type_in m q). { apply (ptr_in p _ q Hp). cbn [pointers]. change q with (snd (name, q)). apply in_map. eapply nthz_In; eauto. }
        pose proof (IH ext q r Pq Hr) as B. destruct (bv k ext q r) as [[o rest]|e|w]; cbn [bind read_ok] in *; auto.
        destruct B as (v & pre & j & -> & Sv & Fv & -> & Se). exists (AVVar n v), (pn ++ pre), (JArr [JStr name; j]).
        split; [now rewrite app_assoc|]. split; [eapply shows_var; eauto|]. split; [constructor; auto|].
        split; [rewrite print_arr; cbn [map seps print]; now rewrite !app_nil_r, <- !app_assoc|].
        intros X. eapply settled_var; eauto.
  Qed.
End Facts.
