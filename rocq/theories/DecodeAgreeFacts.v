(** * DecodeAgreeFacts: the decoder by ABI and the decoder by C++ type on the same bytes (proofs only) *)
From Verif Require Import Base Stream StreamFacts TypedBin TypedSpec TypedBinFacts TypedBinLocal Utf8 Json JsonSpec JsonFacts JsonPrint Keys Abi AbiSpec AbiFacts AbiScalar JsonInt JsonIntFacts AbiScalarFacts Asset AssetFacts Time TimeFacts
  BinLemmas AbiBin AbiValue AbiBinFacts AbiBinSound AbiRead AbiReadBack TypedJson TypedJsonSpec TypedJsonFacts TypedJsonBack ShipFacts AddType AddTypeSpec AddTypeFacts AddTypeRun AddTypeValue Opaque Prop_Opaque
  DecodeAgreeSpec.

Lemma scalar_reader ref b s : from_bin_with ref (scalar_ty b) s = from_bin key_env 0 (scalar_ty b) s.
Proof. rewrite from_bin_unfold. destruct b; reflexivity. Qed.
Lemma wf_scalar rwf b v : wf key_env 0 (scalar_ty b) v = true -> wf_with rwf (scalar_ty b) v = true.
Proof. intros H. destruct b; try exact H; cbn [scalar_ty] in *; exact H. Qed.
Lemma bitwise_scalar t w : addable t = true -> bitwise_size (erase t) = Some w -> exists b, t = JScalar b /\ arithmetic b = true.
Proof. intros A B. destruct t as [b| | | | | | | | | |]; try discriminate B; try discriminate A. exists b. split; [reflexivity|]. destruct b; try discriminate B; reflexivity. Qed.
Lemma arithmetic_bitwise b : arithmetic b = true -> exists w, bitwise_size (scalar_ty b) = Some w.
Proof. destruct b; intros H; try discriminate H; eexists; reflexivity. Qed.
Lemma raw_child t c : In c (children t) -> block_vectors t = false -> block_vectors c = false.
Proof.
  intros Hc H. destruct t as [b|t|t|ts|n fs|a b|t| |t|ns|n]; cbn [children] in Hc; try (destruct Hc; fail).
  - destruct Hc as [<-|[]]. cbn [block_vectors] in H. apply orb_false_iff in H. tauto.
  - destruct Hc as [<-|[]]. exact H.
  - cbn [block_vectors] in H. destruct (block_vectors c) eqn:X; [|reflexivity]. rewrite <- H. symmetry. apply existsb_exists. eauto.
  - cbn [block_vectors] in H. destruct (block_vectors c) eqn:X; [|reflexivity]. rewrite <- H. symmetry. apply existsb_exists. apply in_map_iff in Hc as (f & <- & Hf). exists f. auto.
  - destruct Hc as [<-|[]]. exact H.
Qed.

Lemma or_l a b : a = true -> a || b = true. Proof. now intros ->. Qed.
Lemma or_r a b : b = true -> a || b = true. Proof. intros ->. apply orb_true_r. Qed.
Lemma scalar_writes E b v : scalar_compiles b = true -> scalar_ok b v ->
  match scalar_jv E b v with Ok _ => True | Err e => False | Undef w => In w print_hazards end.
Proof.
  unfold scalar_ok. intros Cb H.
  assert (Us : forall md x, match jstr (microseconds_to_str md x) with Ok _ => True | Err e => False | Undef w => In w print_hazards end).
  { intros md x. pose proof (us_outcome md x) as U. destruct (microseconds_to_str md x); cbn [jstr bind]; [exact Logic.I|contradiction|left; now symmetry]. }
  assert (Fl : forall n m x, wf key_env 0 (TFloat n) (VFloat m x) = true -> match float_jv n x with Ok _ => True | Err e => False | Undef w => In w print_hazards end).
  { intros n m x W. destruct (float_range _ _ _ W) as [N R]. pose proof (float_jv_cases n x N R) as C. destruct (float_jv n x); [exact Logic.I|contradiction|]. right; left; now symmetry. }
  destruct b; try discriminate Cb; cbn [scalar_ty] in H; destruct v; try discriminate H; cbn [scalar_jv]; try exact Logic.I; try (eapply Fl; exact H).
  - apply Us.
  - apply Us.
  - apply Us.
  - destruct l as [|[z| | | | | |] [|[z'| | | | | |] [|? ?]]]; try (cbn in H; rewrite ?andb_false_r in H; discriminate H).
    cbn [wf wf_with map forallb2] in H. apply andb_true_iff in H as [H1 H2]. apply int_range in H1.
    unfold tmin, tmax, tbits in H1. change (8 * Z.of_nat 8 - 1) with 63 in H1.
    unfold asset_to_string.
    assert (U : (exists u, (if z <? 0 then if z =? - 2 ^ 63 then Undef "signed overflow" else Ok (- z) else Ok z) = Ok u /\ 0 <= u < 2 ^ 63) \/
                (if z <? 0 then if z =? - 2 ^ 63 then Undef "signed overflow" else Ok (- z) else Ok z) = Undef "signed overflow").
    { destruct (Z.ltb_spec z 0); [destruct (Z.eqb_spec z (- 2 ^ 63)); [right; reflexivity|left; exists (- z); split; [reflexivity|lia]]|left; exists z; split; [reflexivity|lia]]. }
    destruct U as [(u & -> & Hu)| ->]; [|left; reflexivity]. cbn [bind].
    destruct (z' mod 256 =? 0).
    + rewrite asset_int_spec; [exact Logic.I| |lia]. change (10 ^ Z.of_nat 21) with 1000000000000000000000. lia.
    + rewrite asset_fraction_spec by (pose proof (Z.mod_pos_bound z' 256); lia).
      rewrite asset_int_spec; [exact Logic.I| |lia]. change (10 ^ Z.of_nat 21) with 1000000000000000000000.
      split; [apply Z.div_pos; [lia|apply Z.pow_pos_nonneg; lia]|]. apply Z.le_lt_trans with u; [|lia]. apply Z.div_le_upper_bound; [apply Z.pow_pos_nonneg; lia|].
      assert (1 <= 10 ^ Z.of_nat (Z.to_nat (z' mod 256))) by (apply Z.lt_pred_le, Z.pow_pos_nonneg; lia). nia.
Qed.

Lemma scalar_read_wf rwf b bs v rest : small bs -> from_bin key_env 0 (scalar_ty b) bs = Ok (v, rest) -> wf_with rwf (scalar_ty b) v = true.
Proof.
  intros [Hb Hl] H. pose proof (native_decode_sound key_env 0 (scalar_ty b) bs (fun _ => eq_refl) (scalar_ty_ok b) Hb Hl) as N. rewrite H in N. destruct N as [_ N]. now apply wf_scalar.
Qed.
Section Agree.
  Context (E : float_lib) (ref : nat -> istream -> res (val * istream)) (rwf : nat -> val -> bool) (rdoc : nat -> val -> res jv) (m : amap).
  Hypothesis SM : sound_map m.
  Notation bv := (bval E m).
  Notation rd t := (from_bin_with ref (erase t)).
  Notation doc := (tdoc_with E rdoc).

  Definition excused_error (e : error) : Prop := e = E_recursion_limit_reached.
  Definition rel {A} (raw : bool) (bs : bytes) (good : bytes -> A -> Prop) (r1 : res (bytes * bytes)) (r2 : res (A * istream)) : Prop :=
    match r1 with
    | Ok (text, rest) => (exists pre, bs = pre ++ rest) /\
        match r2 with Ok (v, rest') => rest' = rest /\ good text v | _ => raw = true end
    | Err e => raw = true \/ r2 = Err e \/ excused_error e
    | Undef w => raw = true \/ r2 = Undef w \/ In w print_hazards
    end.
  Lemma rel_bind {A B} raw bs good1 good2 (r1 : res (bytes * bytes)) (r2 : res (A * istream)) (f : bytes * bytes -> res (bytes * bytes)) (g : A * istream -> res (B * istream)) :
    rel raw bs good1 r1 r2 ->
    (forall text v rest, r1 = Ok (text, rest) -> r2 = Ok (v, rest) -> good1 text v -> (exists pre, bs = pre ++ rest) -> rel raw rest good2 (f (text, rest)) (g (v, rest))) ->
    (forall text rest o r, r1 = Ok (text, rest) -> raw = true -> f (text, rest) = Ok (o, r) -> exists pre, rest = pre ++ r) ->
    rel raw bs good2 (bind r1 f) (bind r2 g).
  Proof.
    intros H K Su. destruct r1 as [[text rest]|e|w]; cbn [rel bind] in *.
    - destruct H as [(pre & ->) H]. destruct r2 as [[v rest']|e'|w'].
      + destruct H as [-> G]. specialize (K text v rest eq_refl eq_refl G (ex_intro _ pre eq_refl)). cbn [bind]. unfold rel in K |- *. destruct (f (text, rest)) as [[o r]|e|w]; [|exact K|exact K].
        destruct K as [(p2 & ->) K]. split; [exists (pre ++ p2); apply app_assoc|]. exact K.
      + cbn [bind]. unfold rel. destruct (f (text, rest)) as [[o r]|e|w] eqn:F; auto. destruct (Su text rest o r eq_refl H F) as (p2 & ->). split; [exists (pre ++ p2); apply app_assoc|exact H].
      + cbn [bind]. unfold rel. destruct (f (text, rest)) as [[o r]|e|w] eqn:F; auto. destruct (Su text rest o r eq_refl H F) as (p2 & ->). split; [exists (pre ++ p2); apply app_assoc|exact H].
    - destruct H as [H|[->|H]]; cbn [bind]; auto.
    - destruct H as [H|[->|H]]; cbn [bind]; auto.
  Qed.

  Definition shown (t : jty) (text : bytes) (v : val) : Prop := wf_with rwf (erase t) v = true /\ exists j, doc t v = Ok j /\ text = print j.
  Definition agrees (t : jty) : Prop := forall k ext bs, small bs -> rel (block_vectors t) bs (shown t) (bv k ext (abi_name t) bs) (rd t bs).
  Lemma small_suffix pre bs : small (pre ++ bs) -> small bs.
  Proof. intros H. now apply small_app in H. Qed.
  Lemma rel_weaken {A} raw raw' bs (g : bytes -> A -> Prop) r1 r2 : (raw = true -> raw' = true) -> rel raw bs g r1 r2 -> rel raw' bs g r1 r2.
  Proof.
    intros H. unfold rel. destruct r1 as [[o r]|e|w].
    - intros [P Q]. split; [exact P|]. destruct r2 as [[]| |]; auto.
    - intros [X|X]; auto.
    - intros [X|X]; auto.
  Qed.
  Lemma rel_suffix {A} raw bs (g : bytes -> A -> Prop) r1 r2 o r : rel raw bs g r1 r2 -> r1 = Ok (o, r) -> exists pre, bs = pre ++ r.
  Proof. intros H ->. exact (proj1 H). Qed.

  (** Vectors read element by element *)
  Definition shown_list (t : jty) (first : bool) (n : nat) (text : bytes) (l : list val) : Prop :=
    List.length l = n /\ forallb (wf_with rwf (erase t)) l = true /\ exists js, mapm (map (doc t) l) = Ok js /\ text = seps first (map print js).
  Lemma agree_items t k : agrees t -> forall n pos bs, 0 <= pos -> small bs ->
    rel (block_vectors t) bs (shown_list t (pos =? 0) n) (bitems (bv k) (abi_name t) n pos bs) (read_list (rd t) n bs).
  Proof.
    intros H. induction n as [|n IH]; intros pos bs Hp Hs; cbn [bitems read_list]; (destruct (pos <? 2 ^ 31) eqn:P; cbn [bind]; [|right; right; left; reflexivity]).
    - split; [exists []; reflexivity|]. split; [reflexivity|]. split; [reflexivity|]. split; [reflexivity|]. exists []. auto.
    - apply (rel_bind _ _ _ _ _ _ _ _ (H k false bs Hs)).
      + intros text v rest _ _ (Wv & j & Dj & ->) (pre & ->). apply small_suffix in Hs. pose proof (IH (pos + 1) rest ltac:(lia) Hs) as R.
        apply (rel_bind _ _ _ _ _ _ _ _ R).
        * intros o l r _ _ (Ll & Wl & js & Dl & ->) _. split; [exists []; reflexivity|]. split; [reflexivity|]. split; [cbn [List.length]; congruence|]. split; [cbn [forallb]; now rewrite Wv, Wl|].
          exists (j :: js). split; [cbn [map mapm]; rewrite Dj; cbn [bind]; rewrite Dl; reflexivity|]. cbn [map seps]. replace (pos + 1 =? 0) with false by lia. reflexivity.
        * intros o r o' r' _ _ F. assert (r = r') by congruence. subst. exists []. reflexivity.
      + intros text rest o r R1 _ F. destruct (rel_suffix _ _ _ _ _ _ _ (H k false bs Hs) R1) as (pre & ->). apply small_suffix in Hs.
        apply bind_Ok in F as ([o1 r1] & F1 & F). assert (r1 = r) by congruence. subst r1. exact (rel_suffix _ _ _ _ _ _ _ (IH (pos + 1) rest ltac:(lia) Hs) F1).
  Qed.

  (** Structs *)
  Definition shown_fields (fs : list (bytes * jty)) (first : bool) (text : bytes) (l : list val) : Prop :=
    forallb2 (map (fun f => wf_with rwf (erase (snd f))) fs) l = true /\ exists ms, go_doc E rdoc fs l = Ok ms /\ text = seps first (map item ms).
  Lemma not_extension t : describes m t -> writable_type t = true -> is_ext_type m (abi_name t) = Ok false.
  Proof. intros D W. unfold is_ext_type, deref. rewrite (describes_self m t D). cbn [bind]. apply writes_self in W. destruct t; try discriminate W; reflexivity. Qed.
  Lemma agree_fields k ext fs : Forall (fun f => agrees (snd f) /\ describes m (snd f) /\ writable_type (snd f) = true) fs -> forall first bs, small bs ->
    rel (existsb (fun f => block_vectors (snd f)) fs) bs (shown_fields fs first) (bfields m (bv k) ext (map (fun f => (fst f, abi_name (snd f))) fs) first bs)
        (read_tuple (map (fun f => rd (snd f)) fs) bs).
  Proof.
    induction 1 as [|f fs (Hf & Df & Wf) _ IH]; intros first bs Hs; cbn [map bfields read_tuple existsb].
    - split; [exists []; reflexivity|]. split; [reflexivity|]. split; [reflexivity|]. exists []. auto.
    - rewrite (not_extension _ Df Wf). cbn [bind]. rewrite andb_false_r. cbn [andb].
      set (e2 := ext && is_nil (map (fun f => (fst f, abi_name (snd f))) fs)).
      apply (rel_bind _ _ (shown (snd f)) _ _ _ _ _ (rel_weaken _ _ _ _ _ _ (or_l _ _) (Hf k e2 bs Hs))).
      + intros text v rest _ _ (Wv & j & Dj & ->) (pre & ->). apply small_suffix in Hs. pose proof (IH false rest Hs) as R.
        apply (rel_bind _ _ (shown_fields fs false) _ _ _ _ _ (rel_weaken _ _ _ _ _ _ (or_r _ _) R)).
        * intros o l r _ _ (Wl & ms & Dl & ->) _. split; [exists []; reflexivity|]. split; [reflexivity|]. split; [cbn [map forallb2]; now rewrite Wv, Wl|].
          exists ((fst f, j) :: ms). split; [cbn [go_doc]; rewrite Dj; cbn [bind]; rewrite Dl; reflexivity|]. cbn [map seps]. unfold item at 2. cbn [fst snd]. now rewrite <- !app_assoc.
        * intros o r o' r' _ _ F. assert (r = r') by congruence. subst. exists []. reflexivity.
      + intros text rest o r R1 _ F. destruct (rel_suffix _ _ _ _ _ _ _ (Hf k e2 bs Hs) R1) as (pre & ->). apply small_suffix in Hs.
        apply bind_Ok in F as ([o1 r1] & F1 & F). assert (r1 = r) by congruence. subst r1. exact (rel_suffix _ _ _ _ _ _ _ (IH false rest Hs) F1).
  Qed.

  Lemma vu_suffix bs n r : small bs -> varuint32_from_bin bs = Ok (n, r) -> (exists p, bs = p ++ r) /\ 0 <= n < 2 ^ 32.
  Proof. intros Hs H. pose proof (vu_read bs Hs) as V. rewrite H in V. destruct V as (p & -> & _ & B). eauto. Qed.

  Lemma agree_all : forall t, addable t = true -> writable_type t = true -> describes m t -> agrees t.
  Proof.
    induction t as [b|t IH|t IH|tys IH|nm fs IH|a b IHa IHb|t IH| |t IH|names|k'] using jty_ind'; intros A W D k ext bs Hs; try discriminate A;
      try (apply writes_self in W; discriminate W); pose proof (describes_self _ _ D) as T; cbn [shape] in T.
    - rewrite (bv_base E m k ext _ bs b T). cbn [erase]. rewrite scalar_reader. destruct Hs as [Hb Hl].
      pose proof (native_decode_sound key_env 0 (scalar_ty b) bs (fun _ => eq_refl) (scalar_ty_ok b) Hb Hl) as N.
      destruct (from_bin key_env 0 (scalar_ty b) bs) as [[v r]|e|w]; cbn [bind]; [|right; left; reflexivity|right; left; reflexivity].
      destruct N as [P Wv]. rewrite (scalar_to_json_spec E b v Wv). cbn [addable] in A. pose proof (scalar_writes E b v A Wv) as O.
      destruct (scalar_jv E b v) as [j|e|w] eqn:J; cbn [bind]; [|contradiction|right; right; exact O].
      split; [exact P|]. split; [reflexivity|]. split; [now apply wf_scalar|]. exists j. auto.
    - cbn [addable] in A. apply andb_true_iff in A as [_ A].
      specialize (IH A (writable_child (JVec t) t (or_introl eq_refl) W) (describes_child m (JVec t) t (or_introl eq_refl) D)).
      rewrite (bv_cont E m k ext _ bs _ T eq_refl). cbn [erase from_bin_with block_vectors]. destruct k as [|k].
      { cbn [bctx bfull]. pose proof (vu_read bs Hs) as V. destruct (bitwise_size (erase t)) eqn:B.
        - destruct (bitwise_scalar t n A B) as (b & -> & Ab). cbn [is_arithmetic]. rewrite Ab. destruct (varuint32_from_bin bs) as [[]| |]; cbn [bind rel orb]; auto.
        - destruct (varuint32_from_bin bs) as [[n r]|e|w]; cbn [bind rel]; [right; right; reflexivity|auto|auto]. }
      cbn [bctx bcont]. destruct (bitwise_size (erase t)) eqn:B.
      + destruct (bitwise_scalar t n A B) as (b & -> & Ab). cbn [is_arithmetic]. rewrite Ab. cbn [orb erase] in *.
        destruct (varuint32_from_bin bs) as [[n0 r0]|e|w] eqn:V; cbn [bind rel]; [|auto|auto]. destruct (vu_suffix _ _ _ Hs V) as [(p & ->) Bn].
        pose proof (small_suffix _ _ Hs) as Hr. pose proof (agree_items (JScalar b) k IH (Z.to_nat n0) 0 r0 ltac:(lia) Hr) as R. cbn [block_vectors] in R.
        destruct (bitems (bv k) (abi_name (JScalar b)) (Z.to_nat n0) 0 r0) as [[o rest]|e|w]; cbn [bind rel]; [|auto|auto].
        cbn [rel] in R. destruct R as [(p2 & ->) R]. split; [exists (p ++ p2); apply app_assoc|].
        destruct (read_list (from_bin_with ref (erase (JScalar b))) (Z.to_nat n0) (p2 ++ rest)) as [[l r']|e|w] eqn:RL; try discriminate R.
        destruct R as [-> (Ll & Wl & js & Dl & ->)].
        set (r2 := bind (varuint64_from_bin (p ++ p2 ++ rest)) _).
        destruct r2 as [[v r']|e|w] eqn:R2; [|reflexivity|reflexivity].
        assert (U : unpack key_env 0 (TVec (scalar_ty b)) (p ++ p2 ++ rest) = Ok (v, r')).
        { unfold unpack. rewrite from_bin_unfold. cbn [from_bin_with]. rewrite B. exact R2. }
        assert (Vl : exists l', v = VList l').
        { subst r2. apply bind_Ok in R2 as ([] & _ & R2). apply bind_Ok in R2 as ([] & _ & R2). apply bind_Ok in R2 as ([] & _ & R2). apply bind_Ok in R2 as ([] & _ & R2). eexists. symmetry in R2. assert (v = VList (cut (scalar_ty b) n (Z.to_nat z) b0)) by congruence. eassumption. }
        destruct Vl as [l' ->]. destruct Hs as [Hb Hl].
        destruct (C39_one_by_one key_env 0 (scalar_ty b) _ l' r' (scalar_ty_ok b) Hb Hl U (ex_intro _ n0 (ex_intro _ _ V))) as (o' & V' & TA).
        unfold unpack_size in V'. rewrite V in V'. assert (n0 = Z.of_nat (List.length l')) by congruence. assert (o' = p2 ++ rest) by congruence. subst n0 o'.
        rewrite take_read in TA. rewrite Nat2Z.id in RL, Ll.
        assert (X : read_list (from_bin_with ref (erase (JScalar b))) (List.length l') (p2 ++ rest) = Ok (l', r')).
        { etransitivity; [|exact TA]. clear. generalize (p2 ++ rest). induction (List.length l') as [|n IH]; intros s; [reflexivity|]. cbn [read_list]. cbn [erase] in *. rewrite scalar_reader.
          destruct (from_bin key_env 0 (scalar_ty b) s) as [[x s']| |]; cbn [bind]; [now rewrite IH|reflexivity|reflexivity]. }
        rewrite X in RL. assert (l = l') by congruence. assert (r' = rest) by congruence. subst l r'. split; [reflexivity|]. split.
        * change (len_ok l' && forallb (wf_with rwf (erase (JScalar b))) l' = true). rewrite Wl, andb_true_r. unfold len_ok, fits_u. lia.
        * exists (JArr js). split; [|now rewrite print_arr]. change (bind (mapm (map (doc (JScalar b)) l')) (fun js => Ok (JArr js)) = Ok (JArr js)). now rewrite Dl.
      + assert (is_arithmetic t = false) as ->.
        { destruct t as [b| | | | | | | | | |]; try reflexivity. cbn [is_arithmetic]. destruct (arithmetic b) eqn:Ab; [|reflexivity]. destruct (arithmetic_bitwise b Ab) as [w X]. cbn [erase] in B. congruence. }
        cbn [orb]. destruct (varuint32_from_bin bs) as [[n0 r0]|e|w] eqn:V; cbn [bind rel]; [|auto|auto]. destruct (vu_suffix _ _ _ Hs V) as [(p & ->) Bn].
        pose proof (small_suffix _ _ Hs) as Hr. pose proof (agree_items t k IH (Z.to_nat n0) 0 r0 ltac:(lia) Hr) as R.
        destruct (bitems (bv k) (abi_name t) (Z.to_nat n0) 0 r0) as [[o rest]|e|w]; cbn [bind rel] in *.
        * destruct R as [(p2 & ->) R]. split; [exists (p ++ p2); apply app_assoc|]. destruct (read_list (from_bin_with ref (erase t)) (Z.to_nat n0) (p2 ++ rest)) as [[l r']|e|w]; cbn [bind]; auto.
          destruct R as [-> (Ll & Wl & js & Dl & ->)]. split; [reflexivity|]. split; [cbn [erase wf_with]; rewrite Wl, andb_true_r; unfold len_ok, fits_u; lia|].
          exists (JArr js). split; [cbn [tdoc_with]; rewrite Dl; reflexivity|]. now rewrite print_arr.
        * destruct R as [R|[->|R]]; cbn [bind]; auto.
        * destruct R as [R|[->|R]]; cbn [bind]; auto.
    - cbn [addable] in A. apply andb_true_iff in A as [_ A].
      specialize (IH A (writable_child (JOpt t) t (or_introl eq_refl) W) (describes_child m (JOpt t) t (or_introl eq_refl) D)).
      rewrite (bv_opt E m SM k ext _ bs _ T). cbn [erase from_bin_with block_vectors]. destruct bs as [|x bs]; [cbn [read_u8 bind rel]; auto|]. cbn [read_u8 bind].
      destruct (x =? 0) eqn:X0. { split; [exists [x]; reflexivity|]. split; [reflexivity|]. split; [reflexivity|]. exists JNull. split; reflexivity. }
      destruct (x =? 1) eqn:X1; [|cbn [rel]; auto]. pose proof (small_suffix [x] bs Hs) as Hr. specialize (IH k ext bs Hr).
      destruct (bv k ext (abi_name t) bs) as [[o rest]|e|w]; cbn [rel] in *.
      + destruct IH as [(p & ->) R]. split; [exists (x :: p); reflexivity|]. destruct (from_bin_with ref (erase t) (p ++ rest)) as [[v r']|e|w]; cbn [bind]; exact R.
      + destruct IH as [R|[->|R]]; cbn [bind]; auto.
      + destruct IH as [R|[->|R]]; cbn [bind]; auto.
    - cbn [addable] in A. rewrite (bv_cont E m k ext _ bs _ T eq_refl). cbn [erase from_bin_with]. destruct k as [|k]; [right; right; reflexivity|]. cbn [bctx bcont].
      destruct (varuint32_from_bin bs) as [[i r]|e|w] eqn:V; cbn [bind]; [|cbn [rel]; auto|cbn [rel]; auto]. destruct (vu_suffix _ _ _ Hs V) as [(p & ->) Bi]. pose proof (small_suffix _ _ Hs) as Hr.
      rewrite !nthz_map. destruct (nthz tys i) as [t|] eqn:Nt; cbn [option_map]; [|cbn [rel]; auto]. pose proof (nthz_In _ _ _ Nt) as Ht.
      rewrite Forall_forall in IH. rewrite forallb_forall in A. specialize (A t Ht). apply andb_true_iff in A as [_ A]. pose proof (writable_child (JVariant tys) t Ht W) as Wt.
      specialize (IH t Ht A Wt (describes_child m (JVariant tys) t Ht D) k ext r Hr).
      apply (rel_weaken (block_vectors t)); [intros X; cbn [block_vectors]; apply existsb_exists; eauto|].
      destruct (bv k ext (abi_name t) r) as [[o rest]|e|w]; cbn [rel bind] in *.
      + destruct IH as [(p2 & ->) R]. split; [exists (p ++ p2); apply app_assoc|]. destruct (from_bin_with ref (erase t) (p2 ++ rest)) as [[v r']|e|w]; cbn [bind]; auto.
        destruct R as [-> (Wv & j & Dj & ->)]. split; [reflexivity|]. split.
        * cbn [erase wf_with]. rewrite !nthz_map, Nt. cbn [option_map]. rewrite Wv, andb_true_r. unfold fits_u. lia.
        * exists (JArr [JStr (type_name t); j]). split; [cbn [tdoc_with]; rewrite nthz_map, Nt; cbn [option_map]; rewrite Dj; reflexivity|].
          rewrite print_arr. cbn [map seps]. rewrite (writes_name t (writes_self t Wt)). cbn [print app]. rewrite app_nil_r, <- !app_assoc. reflexivity.
      + destruct IH as [R|[->|R]]; cbn [bind]; auto.
      + destruct IH as [R|[->|R]]; cbn [bind]; auto.
    - cbn [addable] in A. rewrite (bv_cont E m k ext _ bs _ T eq_refl). cbn [erase from_bin_with]. destruct k as [|k]; [right; right; reflexivity|]. cbn [bctx bcont].
      assert (F : Forall (fun f => agrees (snd f) /\ describes m (snd f) /\ writable_type (snd f) = true) fs).
      { rewrite Forall_forall in *. intros f Hf. rewrite forallb_forall in A. assert (Hc : In (snd f) (children (JStruct nm fs))) by (cbn [children]; now apply in_map).
        pose proof (describes_child m _ _ Hc D) as Df. pose proof (writable_child _ _ Hc W) as Wf. split; [|auto]. apply (IH f Hf (A f Hf) Wf Df). }
      pose proof (agree_fields k ext fs F true bs Hs) as R. rewrite map_map.
      destruct (bfields m (bv k) ext (map (fun f => (fst f, abi_name (snd f))) fs) true bs) as [[o rest]|e|w]; cbn [rel bind] in *.
      + destruct R as [P R]. split; [exact P|]. destruct (read_tuple (map (fun f => from_bin_with ref (erase (snd f))) fs) bs) as [[l r']|e|w]; cbn [bind]; auto.
        destruct R as [-> (Wl & ms & Dm & ->)]. split; [reflexivity|]. split; [cbn [erase wf_with]; rewrite map_map; exact Wl|].
        exists (JObj ms). split; [rewrite tdoc_struct, Dm; reflexivity|]. now rewrite print_obj.
      + destruct R as [R|[->|R]]; cbn [bind]; auto.
      + destruct R as [R|[->|R]]; cbn [bind]; auto.
    - rewrite (bv_base E m k ext _ bs _ T). cbn [erase block_vectors]. change TStream with (scalar_ty B_bytes). rewrite scalar_reader. destruct Hs as [Hb Hl].
      pose proof (native_decode_sound key_env 0 (scalar_ty B_bytes) bs (fun _ => eq_refl) (scalar_ty_ok B_bytes) Hb Hl) as N.
      destruct (from_bin key_env 0 (scalar_ty B_bytes) bs) as [[v r]|e|w]; cbn [bind]; [|right; left; reflexivity|right; left; reflexivity].
      destruct N as [P Wv]. rewrite (scalar_to_json_spec E B_bytes v Wv). destruct v as [| | |d| | |]; try discriminate Wv.
      cbn [scalar_jv bind]. split; [exact P|]. split; [reflexivity|]. split; [exact (wf_scalar rwf B_bytes _ Wv)|]. eexists. split; reflexivity.
  Qed.

  (** The bytes a typed value is read from denote the same value by ABI. *)
  Lemma typed_form : forall t, addable t = true -> writable_type t = true -> block_vectors t = false -> forall bs v rest, small bs ->
    rd t bs = Ok (v, rest) -> exists pre, bs = pre ++ rest /\ form (av t v) pre /\ wf_with rwf (erase t) v = true.
  Proof.
    induction t as [b|t IH|t IH|tys IH|nm fs IH|a b IHa IHb|t IH| |t IH|names|k'] using jty_ind'; intros A W N bs v rest Hs H; try discriminate A;
      try (apply writes_self in W; discriminate W).
    - cbn [erase av] in *. rewrite scalar_reader in H. pose proof (scalar_read_wf rwf b bs v rest Hs H) as Wv. apply scalar_local in H as (pre & -> & K). exists pre. split; [reflexivity|]. split; [now constructor|exact Wv].
    - cbn [addable] in A. apply andb_true_iff in A as [_ A]. cbn [block_vectors] in N. apply orb_false_iff in N as [Na N].
      specialize (IH A (writable_child (JVec t) t (or_introl eq_refl) W) N). cbn [erase from_bin_with] in H.
      destruct (bitwise_size (erase t)) eqn:B. { destruct (bitwise_scalar t n A B) as (b & -> & Ab). cbn [is_arithmetic] in Na. congruence. }
      apply bind_Ok in H as ([n s] & V & H). apply bind_Ok in H as ([l s'] & R & H). assert (v = VList l) by congruence. assert (s' = rest) by congruence. subst v s'. clear H.
      pose proof (vu_read bs Hs) as Vu. rewrite V in Vu. destruct Vu as (p & -> & K & Bn). apply small_suffix in Hs.
      assert (G : forall n s l, small s -> read_list (rd t) n s = Ok (l, rest) -> List.length l = n /\ exists pre, s = pre ++ rest /\ forms (map (av t) l) pre /\ forallb (wf_with rwf (erase t)) l = true).
      { clear - IH. induction n as [|n IHn]; intros s l Hs R; cbn [read_list] in R.
        - assert (l = []) by congruence. assert (s = rest) by congruence. subst. split; [reflexivity|]. exists []. split; [reflexivity|]. split; [constructor|reflexivity].
        - apply bind_Ok in R as ([x s1] & Rx & R). apply bind_Ok in R as ([l1 s2] & Rl & R). assert (l = x :: l1) by congruence. assert (s2 = rest) by congruence. subst l s2.
          destruct (IH _ _ _ Hs Rx) as (p1 & -> & F1 & W1). apply small_suffix in Hs. destruct (IHn _ _ Hs Rl) as (Ll & p2 & -> & F2 & W2). split; [cbn [List.length]; congruence|].
          exists (p1 ++ p2). split; [apply app_assoc|]. split; [cbn [map]; now constructor|]. cbn [forallb]. now rewrite W1, W2. }
      destruct (G _ _ _ Hs R) as (Ll & p2 & -> & F & Wl). exists (p ++ p2). split; [apply app_assoc|]. cbn [av]. split; [|cbn [erase wf_with]; rewrite Wl, andb_true_r; unfold len_ok, fits_u; lia]. constructor; [|exact F].
      intros r. rewrite map_length, Ll, Z2Nat.id by lia. apply K.
    - cbn [addable] in A. apply andb_true_iff in A as [_ A]. specialize (IH A (writable_child (JOpt t) t (or_introl eq_refl) W) N). cbn [erase from_bin_with] in H.
      destruct bs as [|x bs]; [discriminate H|]. cbn [read_u8 bind] in H. pose proof (small_suffix [x] bs Hs) as Hr.
      destruct (Z.eqb_spec x 0) as [->|_]. { assert (v = VOpt None) by congruence. assert (bs = rest) by congruence. subst. exists [0]. split; [reflexivity|]. split; [constructor|reflexivity]. }
      destruct (Z.eqb_spec x 1) as [->|_]; [|discriminate H]. apply bind_Ok in H as ([y s] & R & H). assert (v = VOpt (Some y)) by congruence. assert (s = rest) by congruence. subst.
      destruct (IH _ _ _ Hr R) as (p & -> & F & Wv). exists (1 :: p). split; [reflexivity|]. cbn [av]. split; [now constructor|exact Wv].
    - cbn [addable] in A. cbn [erase from_bin_with] in H. apply bind_Ok in H as ([i s] & V & H). pose proof (vu_read bs Hs) as Vu. rewrite V in Vu. destruct Vu as (p & -> & K & Bn).
      apply small_suffix in Hs. rewrite !nthz_map in H. destruct (nthz tys i) as [t|] eqn:Nt; cbn [option_map] in H; [|discriminate H]. pose proof (nthz_In _ _ _ Nt) as Ht.
      apply bind_Ok in H as ([y s'] & R & H). assert (v = VVar i y) by congruence. assert (s' = rest) by congruence. subst.
      rewrite Forall_forall in IH. rewrite forallb_forall in A. specialize (A t Ht). apply andb_true_iff in A as [_ A].
      destruct (IH t Ht A (writable_child (JVariant tys) t Ht W) (raw_child (JVariant tys) t Ht N) _ _ _ Hs R) as (p2 & -> & F & Wv). exists (p ++ p2). split; [apply app_assoc|].
      cbn [av erase wf_with]. rewrite !nthz_map, Nt. cbn [option_map]. split; [now constructor|]. rewrite Wv, andb_true_r. unfold fits_u. lia.
    - cbn [addable] in A. cbn [erase from_bin_with] in H. rewrite map_map in H. apply bind_Ok in H as ([l s] & R & H). assert (v = VList l) by congruence. assert (s = rest) by congruence. subst. clear H.
      rewrite av_struct.
      assert (Wc : forall f, In f fs -> writable_type (snd f) = true /\ block_vectors (snd f) = false).
      { intros f Hf. assert (Hc : In (snd f) (children (JStruct nm fs))) by (cbn [children]; now apply in_map). split; [eapply writable_child; eauto|eapply raw_child; eauto]. }
      assert (G : exists pre, bs = pre ++ rest /\ forms (avs fs l) pre /\ forallb2 (map (fun f => wf_with rwf (erase (snd f))) fs) l = true).
      { clear W N. revert bs l Hs R A Wc. induction fs as [|f fs IHf]; intros bs l Hs R A Wc; cbn [map read_tuple] in R.
        - assert (l = []) by congruence. assert (bs = rest) by congruence. subst. exists []. split; [reflexivity|]. split; [constructor|reflexivity].
        - apply bind_Ok in R as ([x s1] & Rx & R). apply bind_Ok in R as ([l1 s2] & Rl & R). assert (l = x :: l1) by congruence. assert (s2 = rest) by congruence. subst l s2.
          cbn [forallb] in A. apply andb_true_iff in A as [A1 A2]. apply Forall_cons_iff in IH as [IH1 IH2]. destruct (Wc f (or_introl eq_refl)) as [W1 N1].
          destruct (IH1 A1 W1 N1 _ _ _ Hs Rx) as (p1 & -> & F1 & V1). apply small_suffix in Hs. destruct (IHf IH2 _ _ Hs Rl A2 (fun g Hg => Wc g (or_intror Hg))) as (p2 & -> & F2 & V2).
          exists (p1 ++ p2). split; [apply app_assoc|]. split; [cbn [avs]; now constructor|]. cbn [map forallb2]. now rewrite V1, V2. }
      destruct G as (pre & -> & F & Wl). exists pre. split; [reflexivity|]. split; [now constructor|]. cbn [erase wf_with]. now rewrite map_map.
    - cbn [erase av] in *. change TStream with (scalar_ty B_bytes) in H. rewrite scalar_reader in H. pose proof (scalar_read_wf rwf B_bytes bs v rest Hs H) as Wv. apply scalar_local in H as (pre & -> & K). exists pre. split; [reflexivity|]. split; [now constructor|exact Wv].
  Qed.
End Agree.
