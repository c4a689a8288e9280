(** * Running the binary -> JSON machine (proofs only)

    [bval] is a recursive reformulation of the machine, on the number of stack entries
    which are still free; [bin_to_json_eq] shows that the machine always ends, with the
    outcome [bval] gives. *)
From Verif Require Import Base Stream StreamFacts TypedBin TypedSpec TypedBinFacts Json Keys Abi AbiScalar AbiValue Machine AbiBin.

Section Big.
  Variables (E : float_lib) (m : amap).
  Definition rec_t := bool -> bytes -> bytes -> res (bytes * bytes).

  Fixpoint bfields (rec : rec_t) (ext : bool) (fs : list (bytes * bytes)) (first : bool) (bs : bytes) : res (bytes * bytes) :=
    match fs with
    | [] => Ok ([], bs)
    | (name, q) :: fs' =>
        let* x := is_ext_type m q in
        if beq bs [] && x && ext then bfields rec ext fs' false bs
        else
          let* (o, bs) := rec (ext && is_nil fs') q bs in
          let* (o', bs) := bfields rec ext fs' false bs in
          Ok ((if first then [] else [44]) ++ to_json_string name ++ [58] ++ o ++ o', bs)
    end.
  Fixpoint bitems (rec : rec_t) (q : bytes) (n : nat) (pos : Z) (bs : bytes) : res (bytes * bytes) :=
    let* _ := if pos <? 2 ^ 31 then Ok tt else Undef "signed overflow" in
    match n with
    | O => Ok ([], bs)
    | S n' =>
        let* (o, bs) := rec false q bs in
        let* (o', bs) := bitems rec q n' (pos + 1) bs in
        Ok ((if pos =? 0 then [] else [44]) ++ o ++ o', bs)
    end.
  Definition bcont (rec : rec_t) (ext : bool) (d : adata) (bs : bytes) : res (bytes * bytes) :=
    match d with
    | AStruct fs => let* (o, r) := bfields rec ext fs true bs in Ok ([123] ++ o ++ [125], r)
    | AArray q =>
        let* (n, r) := varuint32_from_bin bs in
        let* (o, r) := bitems rec q (Z.to_nat n) 0 r in Ok ([91] ++ o ++ [93], r)
    | AVariant fs =>
        let* (i, r) := varuint32_from_bin bs in
        match nthz fs i with
        | Some (name, q) => let* (o, r) := rec ext q r in Ok ([91] ++ to_json_string name ++ [44] ++ o ++ [93], r)
        | None => Err E_bad_variant_index
        end
    | _ => no_serializer
    end.
  Definition bfull (ext : bool) (d : adata) (bs : bytes) : res (bytes * bytes) :=
    match d with
    | AStruct _ | AVariant _ => Err E_recursion_limit_reached
    | AArray _ => let* _ := varuint32_from_bin bs in Err E_recursion_limit_reached
    | _ => no_serializer
    end.
  Fixpoint bchain (cont : bool -> adata -> bytes -> res (bytes * bytes)) (c : nat) (ext : bool) (p : bytes) (bs : bytes)
    : res (bytes * bytes) :=
    match c with
    | O => too_deep
    | S c' =>
      let* d := deref p m in
      match d with
      | ABuiltin b =>
          let* (v, r) := from_bin key_env 0 (scalar_ty b) bs in
          let* t := scalar_to_json E b v in Ok (t, r)
      | AOptional q =>
          let* (v, r) := from_bin key_env 0 TBool bs in
          match v with
          | VBool true => bchain cont c' ext q r
          | _ => Ok (str "null", r)
          end
      | AExtension q => bchain cont c' ext q bs
      | _ => cont ext d bs
      end
    end.
  Fixpoint bval (k : nat) : rec_t :=
    bchain (match k with O => bfull | S k' => bcont (bval k') end) chain_budget.
  Lemma bval_eq k : bval k = bchain (match k with O => bfull | S k' => bcont (bval k') end) chain_budget.
  Proof. destruct k; reflexivity. Qed.

  (** ** Simulation *)
  Definition checked (i : res bstate) : res bstate :=
    let* s := i in
    let* _ := check (Nat.leb (List.length (b_stack s)) max_stack_size) E_recursion_limit_reached in Ok s.
  Lemma bstep_eq i o f stk : bstep E m (BS i o (f :: stk)) =
    let* s' := checked (badvance E m f stk (BS i o (f :: stk))) in Ok (inl s').
  Proof. unfold bstep, checked. cbn [b_stack]. destruct (badvance _ _ _ _ _); cbn [bind]; auto. destruct (check _ _); reflexivity. Qed.
  Lemma badvance_in f rest i o s1 s2 : badvance E m f rest (BS i o s1) = badvance E m f rest (BS i o s2).
  Proof. unfold badvance. cbn [b_in b_out]. reflexivity. Qed.
  Notation reach := (reaches (bstep E m)).
  Lemma reach_step f stk i o x : reach (checked (badvance E m f stk (BS i o []))) x -> reach (Ok (BS i o (f :: stk))) x.
  Proof. intros H. eapply reaches_step; [|exact H]. rewrite bstep_eq. now rewrite (badvance_in _ _ _ _ (f :: stk) []). Qed.

  (** [rec] is what the machine does with [free] free stack entries. *)
  Definition simulates (free : nat) (rec : rec_t) : Prop := forall ext p bs out stk,
    (List.length stk + free = max_stack_size)%nat ->
    reach (checked (bstart E m chain_budget ext p (BS bs out stk)))
      (let* (o, r) := rec ext p bs in Ok (BS r (out ++ o) stk)).

  Lemma nthz_last {A} (fs : list A) x done : nthz (done ++ x :: fs) (Z.of_nat (List.length done)) = Some x.
  Proof.
    induction done as [|y done IH]; [reflexivity|]. cbn [app nthz List.length].
    destruct (_ =? 0) eqn:Z0; [lia|]. now replace (Z.of_nat (S (List.length done)) - 1) with (Z.of_nat (List.length done)) by lia.
  Qed.
  Lemma nthz_end {A} (fs : list A) : nthz fs (Z.of_nat (List.length fs)) = None.
  Proof.
    induction fs as [|y done IH]; [reflexivity|]. cbn [nthz List.length].
    destruct (_ =? 0) eqn:Z0; [lia|]. now replace (Z.of_nat (S (List.length done)) - 1) with (Z.of_nat (List.length done)) by lia.
  Qed.
  Lemma last_test (done fs : list (bytes * bytes)) x :
    (Z.of_nat (List.length done) =? Z.of_nat (List.length (done ++ x :: fs)) - 1) = is_nil fs.
  Proof. rewrite app_length. cbn [List.length]. destruct fs; cbn [List.length is_nil]; lia. Qed.
  Lemma first_test (done : list (bytes * bytes)) : (Z.of_nat (List.length done) =? 0) = is_nil done.
  Proof. destruct done; cbn [List.length is_nil]; lia. Qed.

  Lemma sim_fields free rec p ext : simulates free rec -> forall fs done n bs out stk,
    afind p m = Some (AStruct (done ++ fs)) ->
    (List.length stk + S free = max_stack_size)%nat ->
    reach (Ok (BS bs out (BF p ext (Z.of_nat (List.length done) - 1) n :: stk)))
      (let* (o, r) := bfields rec ext fs (is_nil done) bs in Ok (BS r (out ++ o ++ [125]) stk)).
  Proof.
    intros HR. induction fs as [|[name q] fs IH]; intros done n bs out stk Hp Hk.
    - cbn [bfields bind]. apply reach_step. unfold badvance, deref. cbn [bf_type bf_pos bf_ext bf_size b_in b_out].
      rewrite Hp. cbn [bind]. replace (Z.of_nat (List.length done) - 1 + 1) with (Z.of_nat (List.length done)) by lia.
      rewrite app_nil_r, nthz_end. unfold checked. cbn [bind b_stack].
      destruct (Nat.leb_spec (List.length stk) max_stack_size); [|lia]. cbn [check bind app]. apply reaches_refl.
    - apply reach_step. unfold badvance. unfold deref at 1. cbn [bf_type bf_pos bf_ext bf_size b_in b_out].
      rewrite Hp. cbn [bind]. replace (Z.of_nat (List.length done) - 1 + 1) with (Z.of_nat (List.length done)) by lia.
      rewrite nthz_last. cbn [bfields]. destruct (is_ext_type m q) as [x|e|w]; cbn [bind]; [|reflexivity|reflexivity].
      specialize (IH (done ++ [(name, q)])). replace ((done ++ [(name, q)]) ++ fs) with (done ++ (name, q) :: fs) in IH by (now rewrite <- app_assoc).
      assert (P : Z.of_nat (List.length (done ++ [(name, q)])) - 1 = Z.of_nat (List.length done)) by (rewrite app_length; cbn [List.length]; lia).
      rewrite P in IH. assert (N : is_nil (done ++ [(name, q)]) = false) by (destruct done; reflexivity). rewrite N in IH. clear P N.
      destruct (beq bs [] && x && ext).
      + unfold checked. cbn [bind b_stack List.length]. destruct (Nat.leb_spec (S (List.length stk)) max_stack_size); [|lia].
        cbn [check bind]. apply IH; auto.
      + cbv zeta. rewrite last_test, first_test.
        pose proof (HR (ext && is_nil fs) q bs (out ++ (if is_nil done then [] else [44]) ++ to_json_string name ++ [58])
          (BF p ext (Z.of_nat (List.length done)) n :: stk)) as H1.
        cbn [List.length] in H1. specialize (H1 ltac:(lia)).
        destruct (rec (ext && is_nil fs) q bs) as [[o r]|e|w]; cbn [bind] in H1 |- *; [|exact H1|exact H1].
        eapply reaches_trans; [exact H1|].
        pose proof (IH n r ((out ++ (if is_nil done then [] else [44]) ++ to_json_string name ++ [58]) ++ o) stk Hp Hk) as H2.
        destruct (bfields rec ext fs false r) as [[o' r']|e|w]; cbn [bind] in H2 |- *; [|exact H2|exact H2].
        eapply eq_rect; [exact H2|]. do 2 f_equal. now rewrite <- !app_assoc.
  Qed.

  Lemma sim_items free rec p q : simulates free rec -> afind p m = Some (AArray q) -> forall n pos bs out stk,
    0 <= pos -> (List.length stk + S free = max_stack_size)%nat ->
    reach (Ok (BS bs out (BF p false (pos - 1) (pos + Z.of_nat n) :: stk)))
      (let* (o, r) := bitems rec q n pos bs in Ok (BS r (out ++ o ++ [93]) stk)).
  Proof.
    intros HR Hp. induction n as [|n IH]; intros pos bs out stk Hpos Hk; cbn [bitems]; apply reach_step;
      unfold badvance, deref; cbn [bf_type bf_pos bf_ext bf_size b_in b_out]; rewrite Hp; cbn [bind];
      replace (pos - 1 + 1) with pos by lia; (destruct (pos <? 2 ^ 31) eqn:O; cbn [bind]; [|reflexivity]).
    - destruct (Z.ltb_spec pos (pos + Z.of_nat 0)); [lia|]. unfold checked. cbn [bind b_stack].
      destruct (Nat.leb_spec (List.length stk) max_stack_size); [|lia]. cbn [check bind app]. apply reaches_refl.
    - destruct (Z.ltb_spec pos (pos + Z.of_nat (S n))); [|lia].
      pose proof (HR false q bs (out ++ (if pos =? 0 then [] else [44])) (BF p false pos (pos + Z.of_nat (S n)) :: stk)) as H1.
      cbn [List.length] in H1. specialize (H1 ltac:(lia)).
      destruct (rec false q bs) as [[o r]|e|w]; cbn [bind] in H1 |- *; [|exact H1|exact H1].
      eapply reaches_trans; [exact H1|].
      pose proof (IH (pos + 1) r ((out ++ (if pos =? 0 then [] else [44])) ++ o) stk ltac:(lia) Hk) as H2.
      replace (pos + 1 - 1) with pos in H2 by lia. replace (pos + 1 + Z.of_nat n) with (pos + Z.of_nat (S n)) in H2 by lia.
      destruct (bitems rec q n (pos + 1) r) as [[o' r']|e|w]; cbn [bind] in H2 |- *; [|exact H2|exact H2].
      eapply eq_rect; [exact H2|]. do 2 f_equal. now rewrite <- !app_assoc.
  Qed.

  Lemma varuint32_nonneg s n r : varuint32_from_bin s = Ok (n, r) -> 0 <= n.
  Proof.
    unfold varuint32_from_bin. assert (G : forall f dest shift s, 0 <= dest -> varuint_from_bin_loop f 32 35 dest shift s = Ok (n, r) -> 0 <= n).
    { clear s. induction f as [|f IH]; intros dest shift s Hd H; [discriminate|]. cbn [varuint_from_bin_loop] in H.
      apply bind_Ok in H as [_ [_ H]]. apply bind_Ok in H as [[b s'] [_ H]].
      assert (0 <= Z.lor dest (Z.shiftl (Z.land b 127) shift mod 2 ^ 32)) by (apply Z.lor_nonneg; split; [exact Hd|apply Z.mod_pos_bound; lia]).
      destruct (negb _); [eapply IH; eauto|]. congruence. }
    apply G. lia.
  Qed.

  Lemma sim_cont free rec p d ext bs out stk : simulates free rec -> afind p m = Some d ->
    (List.length stk + S free = max_stack_size)%nat ->
    (match d with AStruct _ | AArray _ | AVariant _ => True | _ => False end) ->
    reach (checked (bstart E m 1 ext p (BS bs out stk))) (let* (o, r) := bcont rec ext d bs in Ok (BS r (out ++ o) stk)).
  Proof.
    intros HR Hp Hk Hd. cbn [bstart]. unfold deref at 1. rewrite Hp. cbn [bind]. destruct d; try contradiction; cbn [bcont b_in b_out b_stack].
    - destruct (varuint32_from_bin bs) as [[n r]|e|w] eqn:V; cbn [bind]; [|reflexivity|reflexivity].
      unfold checked. cbn [bind b_stack List.length]. destruct (Nat.leb_spec (S (List.length stk)) max_stack_size); [|lia]. cbn [check bind].
      apply varuint32_nonneg in V.
      pose proof (sim_items free rec p p0 HR Hp (Z.to_nat n) 0 r (out ++ [91]) stk ltac:(lia) Hk) as S.
      rewrite Z.add_0_l, Z2Nat.id in S by exact V. change (0 - 1) with (-1) in S.
      destruct (bitems rec p0 (Z.to_nat n) 0 r) as [[o r']|e|w]; cbn [bind] in S |- *; [|exact S|exact S].
      eapply eq_rect; [exact S|]. do 2 f_equal. now rewrite <- !app_assoc.
    - unfold checked. cbn [bind b_stack List.length]. destruct (Nat.leb_spec (S (List.length stk)) max_stack_size); [|lia]. cbn [check bind].
      pose proof (sim_fields free rec p ext HR fields [] 0 bs (out ++ [123]) stk Hp Hk) as S. cbn [List.length is_nil] in S.
      change (Z.of_nat 0 - 1) with (-1) in S.
      destruct (bfields rec ext fields true bs) as [[o r']|e|w]; cbn [bind] in S |- *; [|exact S|exact S].
      eapply eq_rect; [exact S|]. do 2 f_equal. now rewrite <- !app_assoc.
    - unfold checked. cbn [bind b_stack List.length]. destruct (Nat.leb_spec (S (List.length stk)) max_stack_size); [|lia]. cbn [check bind].
      apply reach_step. unfold badvance. unfold deref at 1. cbn [bf_type bf_pos bf_ext bf_size b_in b_out]. rewrite Hp. cbn [bind].
      change (-1 + 1 =? 0) with true. cbn [Z.eqb]. destruct (varuint32_from_bin bs) as [[i r]|e|w]; cbn [bind]; [|reflexivity|reflexivity].
      destruct (nthz fields i) as [[name q]|]; [|reflexivity].
      pose proof (HR ext q r ((out ++ [91]) ++ to_json_string name ++ [44]) (BF p ext (-1 + 1) 0 :: stk)) as H1.
      cbn [List.length] in H1. specialize (H1 ltac:(lia)).
      destruct (rec ext q r) as [[o r']|e|w]; cbn [bind] in H1 |- *; [|exact H1|exact H1].
      eapply reaches_trans; [exact H1|]. apply reach_step. unfold badvance, deref. cbn [bf_type bf_pos bf_ext bf_size b_in b_out]. rewrite Hp. cbn [bind].
      change (-1 + 1 + 1 =? 0) with false. unfold checked. cbn [bind b_stack].
      destruct (Nat.leb_spec (List.length stk) max_stack_size); [|lia]. cbn [check bind app].
      eapply eq_rect; [apply reaches_refl|]. do 2 f_equal. now rewrite <- !app_assoc.
  Qed.

  Lemma sim_full p d ext bs out stk : afind p m = Some d -> (List.length stk = max_stack_size)%nat ->
    (match d with AStruct _ | AArray _ | AVariant _ => True | _ => False end) ->
    reach (checked (bstart E m 1 ext p (BS bs out stk))) (let* (o, r) := bfull ext d bs in Ok (BS r (out ++ o) stk)).
  Proof.
    intros Hp Hk Hd. cbn [bstart]. unfold deref at 1. rewrite Hp. cbn [bind]. unfold checked.
    destruct d; try contradiction; cbn [bfull b_in b_out b_stack].
    - destruct (varuint32_from_bin bs) as [[n r]|e|w] eqn:V; cbn [bind b_stack List.length]; [|reflexivity|reflexivity].
      destruct (Nat.leb_spec (S (List.length stk)) max_stack_size); [lia|reflexivity].
    - cbn [bind b_stack List.length]. destruct (Nat.leb_spec (S (List.length stk)) max_stack_size); [lia|reflexivity].
    - cbn [bind b_stack List.length]. destruct (Nat.leb_spec (S (List.length stk)) max_stack_size); [lia|reflexivity].
  Qed.

  Lemma sim_chain k cont : (match k with O => cont = bfull | S k' => exists rec, simulates k' rec /\ cont = bcont rec end) ->
    forall c ext p bs out stk, (List.length stk + k = max_stack_size)%nat ->
    reach (checked (bstart E m c ext p (BS bs out stk))) (let* (o, r) := bchain cont c ext p bs in Ok (BS r (out ++ o) stk)).
  Proof.
    intros HC. induction c as [|c IH]; intros ext p bs out stk Hk; [reflexivity|].
    assert (G : forall d, afind p m = Some d -> (match d with AStruct _ | AArray _ | AVariant _ => True | _ => False end) ->
      reach (checked (bstart E m 1 ext p (BS bs out stk))) (let* (o, r) := cont ext d bs in Ok (BS r (out ++ o) stk))).
    { intros d Hp Hd. destruct k as [|k].
      - subst cont. apply sim_full; auto; lia.
      - destruct HC as (rec & HR & ->). apply sim_cont with (free := k); auto. }
    cbn [bstart bchain]. cbn [bstart] in G. unfold deref in *. destruct (afind p m) as [d|]; cbn [bind] in *; [|reflexivity].
    cbn [b_in b_out b_stack] in *.
    assert (L : (List.length stk <= max_stack_size)%nat) by lia.
    destruct d; try reflexivity; try (apply (G _ eq_refl Logic.I)).
    - destruct (from_bin key_env 0 (scalar_ty b) bs) as [[v r]|e|w]; cbn [bind]; try reflexivity.
      destruct (scalar_to_json E b v) as [t|e|w]; cbn [bind]; try reflexivity.
      unfold checked. cbn [bind b_stack]. destruct (Nat.leb_spec (List.length stk) max_stack_size); [|lia]. apply reaches_refl.
    - destruct k as [|k]; [subst cont; reflexivity|destruct HC as (rec & HR & ->); reflexivity].
    - destruct k as [|k]; [subst cont; reflexivity|destruct HC as (rec & HR & ->); reflexivity].
    - destruct k as [|k]; [subst cont; reflexivity|destruct HC as (rec & HR & ->); reflexivity].
    - destruct k as [|k]; [subst cont; reflexivity|destruct HC as (rec & HR & ->); reflexivity].
    - destruct (from_bin key_env 0 TBool bs) as [[v r]|e|w]; cbn [bind]; try reflexivity.
      assert (B : reach (checked (Ok (BS r (out ++ str "null") stk))) (Ok (BS r (out ++ str "null") stk))).
      { unfold checked. cbn [bind b_stack]. destruct (Nat.leb_spec (List.length stk) max_stack_size); [|lia]. apply reaches_refl. }
      destruct v as [ |[]| | | | | ]; cbn [bind]; try exact B. apply IH. exact Hk.
    - apply IH. exact Hk.
  Qed.
  Lemma sim_val k : simulates k (bval k).
  Proof.
    induction k as [|k IH]; rewrite bval_eq; intros ext p bs out stk Hk.
    - apply (sim_chain 0); auto.
    - apply (sim_chain (S k)); eauto.
  Qed.

  Lemma bstart_small c : forall ext p s, (List.length (b_stack s) < max_stack_size)%nat -> checked (bstart E m c ext p s) = bstart E m c ext p s.
  Proof.
    induction c as [|c IH]; intros ext p s Hs; [reflexivity|]. cbn [bstart]. destruct (deref p m) as [d|e|w]; cbn [bind]; try reflexivity.
    assert (A : forall i o, checked (Ok (BS i o (b_stack s))) = Ok (BS i o (b_stack s))).
    { intros i o. unfold checked. cbn [bind b_stack]. destruct (Nat.leb_spec (List.length (b_stack s)) max_stack_size); [reflexivity|lia]. }
    assert (B : forall i o f, checked (Ok (BS i o (f :: b_stack s))) = Ok (BS i o (f :: b_stack s))).
    { intros i o f. unfold checked. cbn [bind b_stack List.length]. destruct (Nat.leb_spec (S (List.length (b_stack s))) max_stack_size); [reflexivity|lia]. }
    destruct d; try reflexivity; auto.
    - destruct (from_bin _ _ _ _) as [[v r]|e|w]; cbn [bind]; try reflexivity. destruct (scalar_to_json E b v); cbn [bind]; try reflexivity. apply A.
    - destruct (from_bin _ _ _ _) as [[v r]|e|w]; cbn [bind]; try reflexivity. destruct v as [ |[]| | | | | ]; auto.
    - destruct (varuint32_from_bin _) as [[v r]|e|w]; cbn [bind]; try reflexivity. apply B.
  Qed.

  Theorem bin_to_json_eq p bin r : bin_to_json E m p bin r <-> r = bval 128 true p bin.
  Proof.
    assert (H : bin_to_json E m p bin (bval 128 true p bin)).
    { unfold bin_to_json.
      pose proof (sim_val 128 true p bin [] [] eq_refl) as S.
      rewrite bstart_small in S by (cbn; unfold max_stack_size; lia). 
      pose proof (reaches_exec (bstep E m) _ _ (fun s => Ok (b_out s, b_in s)) S) as X.
      eapply eq_rect; [apply X; clear X|destruct (bval 128 true p bin) as [[o q]|e|w]; reflexivity].
      intros s Hs. apply bind_Ok in Hs as [[o q] [_ Hs]].
      assert (s = BS q ([] ++ o) []) by congruence. subst s. reflexivity. }
    split; [|intros ->; exact H]. intros H'. eapply exec_from_fun; eauto.
  Qed.
End Big.
