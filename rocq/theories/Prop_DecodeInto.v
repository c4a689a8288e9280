(** * Property C54: decoding into an object which already has a value, and failed decoding.
    Model: DecodeInto.v (and TypedBin.v for fresh objects). Specification: DecodeIntoSpec.v. *)
From Verif Require Import Base Stream StreamFacts TypedBin TypedSpec Prop_Bin DecodeInto DecodeIntoSpec DecodeIntoFacts.

(** ** C54 *)
(** What an object held before makes no difference to how much is read and which error is reported, and
    [becomes] tells what it is afterwards, in terms of what a fresh object would be. *)
Theorem C54_outcome : forall env d fuel t old s,
  (forall n, ty_ok (env n) = true) -> ty_ok t = true -> defaults env d -> object env t old ->
  (forall r rest, from_bin_into env d fuel t old s = (r, Ok rest) ->
     exists new, from_bin env fuel t s = Ok (new, rest) /\ becomes env t old new r) /\
  (forall new rest, from_bin env fuel t s = Ok (new, rest) -> exists r, from_bin_into env d fuel t old s = (r, Ok rest)) /\
  (forall r e, from_bin_into env d fuel t old s = (r, Err e) -> from_bin env fuel t s = Err e).
Proof.
  intros env d fuel t old s Te T D O. destruct (agree_refs env d Te D fuel t T) as [_ A]. specialize (A old O s).
  destruct (from_bin_into env d fuel t old s) as [v [r|e|w]].
  - split; [|split; [|discriminate]].
    + intros r0 rest E. injection E as -> ->. exact A.
    + intros nw rest E. destruct A as (n2 & E2 & _). exists v. assert (r = rest) by congruence. now subst.
  - split; [discriminate|]. split; [intros nw rest E; congruence|]. intros r e' E. injection E as _ ->. exact A.
  - split; [discriminate|]. split; [|discriminate]. intros nw rest E. destruct A as [(x & X)|(x & X)]; congruence.
Qed.
Print Assumptions C54_outcome.

(** A fresh object gets exactly the value of the fresh decoder, whose properties are C03 and C04. *)
Theorem C54_fresh : forall env d fuel t s v rest,
  (forall n, ty_ok (env n) = true) -> ty_ok t = true -> defaults env d ->
  from_bin_into env d fuel t (fresh_with d t) s = (v, Ok rest) <-> from_bin env fuel t s = Ok (v, rest).
Proof.
  intros env d fuel t s v rest Te T D. destruct (agree_refs env d Te D fuel t T) as [A _]. specialize (A s).
  destruct (from_bin_into env d fuel t (fresh_with d t) s) as [x [r|e|w]].
  - destruct A as (y & E & <-). rewrite E. split; intros X; injection X as -> ->; reflexivity.
  - rewrite A. split; discriminate.
  - split; [discriminate|]. intros E. destruct A as [(y & X)|(y & X)]; congruence.
Qed.
Print Assumptions C54_fresh.

(** Types without lists, deques, sets, maps and might_not_exist in place: the old value does not show.
    [ok] is any set of recursive types which is closed under this. *)
Theorem C54_overwritten : forall env d fuel t old s ok,
  (forall n, ty_ok (env n) = true) -> ty_ok t = true -> defaults env d -> object env t old ->
  (forall n, ok n = true -> overwritten ok (env n) = true) -> overwritten ok t = true ->
  forall v rest, from_bin_into env d fuel t old s = (v, Ok rest) <-> from_bin env fuel t s = Ok (v, rest).
Proof.
  intros env d fuel t old s ok Te T D O K W v rest. destruct (C54_outcome env d fuel t old s Te T D O) as (A & B & _). split.
  - intros E. destruct (A _ _ E) as (nw & E2 & X). destruct (overwritten_same env ok K) as [Y _]. now rewrite (Y _ _ _ _ X W).
  - intros E. destruct (B _ _ E) as (r & E2). destruct (A _ _ E2) as (nw & E3 & X). destruct (overwritten_same env ok K) as [Y _]. rewrite (Y _ _ _ _ X W) in E2. congruence.
Qed.
Print Assumptions C54_overwritten.

(** After every call, also one which throws, the object is an object of its type. *)
Theorem C54_objects : forall env d fuel t old s,
  (forall n, instantiable (env n) = true) -> instantiable t = true -> defaults env d ->
  object env t old -> bytes_ok s -> object env t (fst (from_bin_into env d fuel t old s)).
Proof. intros env d fuel t old s Te T D O Hs. now apply into_object_all. Qed.
Print Assumptions C54_objects.
Theorem C54_values_are_objects : forall env fuel t v, wf env fuel t v = true -> object env t v.
Proof. exact wf_object. Qed.
Print Assumptions C54_values_are_objects.
Theorem C54_fresh_objects : forall env d t, defaults env d -> instantiable t = true -> object env t (fresh_with d t).
Proof. intros env d t D T. now apply fresh_object. Qed.
Print Assumptions C54_fresh_objects.

(** Trying again: whatever was decoded into the object before, completely or not, a type of
    [C54_overwritten] then gets the value in the stream. *)
Theorem C54_retry : forall env d fuel t old tries ok v bin rest,
  (forall n, instantiable (env n) = true) -> instantiable t = true -> defaults env d -> object env t old ->
  (forall n, ok n = true -> overwritten ok (env n) = true) -> overwritten ok t = true ->
  Forall bytes_ok tries -> wf env fuel t v = true -> bytes_ok rest ->
  to_bin vector_stream env fuel t v [] = Ok bin ->
  from_bin_into env d fuel t (fold_left (fun obj s => fst (from_bin_into env d fuel t obj s)) tries old) (bin ++ rest) = (v, Ok rest).
Proof.
  intros env d fuel t old tries ok v bin rest Te T D O K W B Wf Hr E.
  assert (Obj : object env t (fold_left (fun obj s => fst (from_bin_into env d fuel t obj s)) tries old)).
  { revert old O. induction B as [|s l Hs _ IH]; intros old O; cbn [fold_left]; [exact O|]. apply IH. now apply C54_objects. }
  eapply C54_overwritten; [intros n; now apply instantiable_ok|now apply instantiable_ok|exact D|exact Obj|exact K|exact W|].
  destruct (C03_native_binary_roundtrip env fuel t v Wf) as (bin' & E' & R). assert (bin = bin') by congruence. subst. now apply R.
Qed.
Print Assumptions C54_retry.

(** might_not_exist: at the end of the stream the object stays as it is; else as if it was not there. *)
Theorem C54_might_not_exist : forall env d fuel t old,
  from_bin_into env d fuel (TMaybe t) old [] = (old, Ok []) /\
  forall b s, from_bin_into env d fuel (TMaybe t) old (b :: s) = from_bin_into env d fuel t old (b :: s).
Proof. intros env d fuel t old. rewrite !from_bin_into_unfold. split; reflexivity. Qed.
Print Assumptions C54_might_not_exist.

(** Vectors of numbers and byte strings views are checked first: an error leaves them as they were. *)
Theorem C54_checked_first : forall env d fuel t n old s e,
  t = TStream \/ t = TVec (TInt true n) \/ t = TVec (TInt false n) \/ t = TVec (TFloat n) ->
  (0 < n)%nat -> bytes_ok s -> object env t old ->
  forall r, from_bin_into env d fuel t old s = (r, Err e) -> r = old.
Proof.
  intros env d fuel t n old s e Ht Hn Hs O r. rewrite from_bin_into_unfold.
  assert (G : forall t' w l, bitwise_size t' = Some w -> (0 < w)%nat ->
    from_bin_into_with d (fun n v s => match fuel with O => (v, Undef "stack") | S f => from_bin_into env d f (env n) v s end) (TVec t') (VList l) s = (r, Err e) -> r = VList l).
  { intros t' w l W Hw. cbn [from_bin_into_with]. rewrite W. unfold with_length. destruct (varuint64_from_bin s) as [[m q]|e'|w'] eqn:V; [|congruence|congruence].
    destruct (vu64_ok _ _ _ Hs V) as [Hm _]. cbn zeta. unfold check_available, check. destruct (Z.leb_spec ((m * Z.of_nat w) mod 2 ^ 64) (Z.of_nat (List.length q))) as [L|L]; [|congruence].
    destruct (m <=? (2 ^ 63 - 1) / Z.of_nat w); [|congruence]. unfold read_raw, sread, check. rewrite (proj2 (Z.leb_le _ _) L). cbn [bind]. discriminate. }
  destruct Ht as [-> |[-> |[-> | ->]]]; inversion O; subst.
  - cbn [from_bin_into_with]. unfold with_length. destruct (varuint64_from_bin s) as [[m q]|e'|w'] eqn:V; [|congruence|congruence].
    unfold check_available, check. destruct (Z.leb_spec m (Z.of_nat (List.length q))) as [L|L]; [|congruence]. unfold read_raw, sread, check. rewrite (proj2 (Z.leb_le _ _) L). cbn [bind]. discriminate.
  - eapply (G _ n); [reflexivity|lia].
  - eapply (G _ n); [reflexivity|lia].
  - eapply (G _ n); [reflexivity|lia].
Qed.
Print Assumptions C54_checked_first.

(** ** What an error leaves behind *)
Lemma nthz_missing {A} (l : list A) : forall i, nthz l i = None -> 0 <= i -> nth_error l (Z.to_nat i) = None.
Proof.
  induction l as [|x l IH]; intros i H Hi; [now destruct (Z.to_nat i)|]. cbn [nthz] in H. destruct (Z.eqb_spec i 0) as [E0|N]; [discriminate H|].
  replace (Z.to_nat i) with (S (Z.to_nat (i - 1))) by lia. cbn [nth_error]. apply IH; [exact H|lia].
Qed.
Lemma fill_stopped (f : ty -> val -> istream -> into) e t : forall l s, snd (fill (f t) l s) = Err e -> stopped f e (repeat t (List.length l)) l s (fst (fill (f t) l s)).
Proof.
  induction l as [|x l IH]; intros s H; cbn [fill] in *; [discriminate H|]. destruct (f t x s) as [y [s'|e'|w]] eqn:F; cbn [fst snd List.length repeat] in *.
  - specialize (IH s'). destruct (fill (f t) l s') as [l' r]. cbn [fst snd] in *. specialize (IH H).
    destruct IH as [ts1 t0 ts2 first x0 last s0 first' s1 z T0 F0 L0]. apply (stopped_at _ e (t :: ts1) t0 ts2 (x :: first) x0 last s (y :: first') s1 z); [|exact F0|exact L0]. econstructor; eauto.
  - assert (e' = e) by congruence. subst e'. apply (stopped_at _ e [] t (repeat t (List.length l)) [] x l s [] s y); [constructor|exact F|apply repeat_length].
  - discriminate H.
Qed.
Lemma emplace_stopped key f e : forall n l s, snd (emplace key f n l s) = Err e ->
  exists k s' x, (k < n)%nat /\ emplace key f k l s = (fst (emplace key f n l s), Ok s') /\ f s' = (x, Err e).
Proof.
  induction n as [|n IH]; intros l s H; cbn [emplace] in *; [discriminate H|]. destruct (f s) as [x [s1|e'|w]] eqn:F; cbn [fst snd] in *.
  - destruct (has_nan (key x)) eqn:N; [discriminate H|]. destruct (IH _ _ H) as (k & s2 & y & K & E & Y). exists (S k), s2, y. split; [lia|]. split; [|exact Y]. cbn [emplace]. rewrite F, N. exact E.
  - exists O, s, x. split; [lia|]. split; [reflexivity|]. congruence.
  - discriminate H.
Qed.
(** Structs, tuples and arrays: the members before the failing one are read, those behind it are as they were. *)
Theorem C54_members_stopped : forall env d fuel ts old s r e, List.length ts = List.length old ->
  from_bin_into env d fuel (TTuple ts) (VList old) s = (r, Err e) ->
  exists new, r = VList new /\ stopped (from_bin_into env d fuel) e ts old s new.
Proof.
  intros env d fuel ts old s r e L H. rewrite from_bin_into_unfold in H. cbn [from_bin_into_with] in H. unfold as_list in H. injection H as <- H. eexists. split; [reflexivity|].
  rewrite <- (from_bin_into_unfold env d fuel) in *. revert old s L H. induction ts as [|t ts IH]; intros [|x old] s L H; try discriminate L; cbn [map fill_members] in H; [discriminate H|].
  cbn [map fill_members]. destruct (from_bin_into env d fuel t x s) as [y [s'|e'|w]] eqn:F; cbn [fst snd] in *.
  - specialize (IH old s' ltac:(cbn [List.length] in L; lia)). destruct (fill_members (map (from_bin_into env d fuel) ts) old s') as [l r]. cbn [fst snd] in *. specialize (IH H).
    destruct IH as [ts1 t0 ts2 first x0 last s0 first' s1 z T0 F0 L0]. apply (stopped_at _ e (t :: ts1) t0 ts2 (x :: first) x0 last s (y :: first') s1 z); [|exact F0|exact L0]. econstructor; eauto.
  - assert (e' = e) by congruence. subst e'. apply (stopped_at _ e [] t ts [] x old s [] s y); [constructor|exact F|cbn [List.length] in L; lia].
  - discriminate H.
Qed.
Print Assumptions C54_members_stopped.
Theorem C54_array_stopped : forall env d fuel t n old s r e, List.length old = n ->
  from_bin_into env d fuel (TArr n t) (VList old) s = (r, Err e) ->
  exists new, r = VList new /\ stopped (from_bin_into env d fuel) e (repeat t n) old s new.
Proof.
  intros env d fuel t n old s r e L H. rewrite from_bin_into_unfold in H. cbn [from_bin_into_with] in H. unfold as_list in H. injection H as <- H. eexists. split; [reflexivity|].
  subst n. rewrite <- (from_bin_into_unfold env d fuel) in *. now apply fill_stopped.
Qed.
Print Assumptions C54_array_stopped.
(** C arrays have their size in the stream: with another one, and when they hold numbers, nothing happens to them. *)
Theorem C54_c_array_stopped : forall env d fuel t n old s r e, List.length old = n ->
  from_bin_into env d fuel (TCArr n t) (VList old) s = (r, Err e) ->
  (r = VList old /\
   (varuint32_from_bin s = Err e \/
    exists k s', varuint32_from_bin s = Ok (k, s') /\
      (k <> Z.of_nat n /\ e = E_array_size_mismatch \/ k = Z.of_nat n /\ bitwise_size t <> None /\ e = E_overrun))) \/
  exists s' new, bitwise_size t = None /\ varuint32_from_bin s = Ok (Z.of_nat n, s') /\ r = VList new /\
    stopped (from_bin_into env d fuel) e (repeat t n) old s' new.
Proof.
  intros env d fuel t n old s r e L H. rewrite from_bin_into_unfold in H. cbn [from_bin_into_with] in H. unfold with_length in H.
  destruct (varuint32_from_bin s) as [[k s']|e'|w] eqn:V; [|left; split; [congruence|left; congruence]|discriminate H].
  destruct (Z.eqb_spec k (Z.of_nat n)) as [E|E]; [|left; split; [congruence|]; right; exists k, s'; split; [reflexivity|]; left; split; [exact E|congruence]].
  destruct (bitwise_size t) as [w|] eqn:B.
  - left. unfold read_raw, sread, check in H. destruct (k * Z.of_nat w <=? Z.of_nat (List.length s')); cbn [bind] in H; [discriminate H|].
    split; [congruence|]. right. exists k, s'. split; [reflexivity|]. right. split; [exact E|]. split; congruence.
  - right. unfold as_list in H. injection H as <- H. exists s'. eexists. split; [reflexivity|]. split; [now rewrite <- E|]. split; [reflexivity|].
    subst n. rewrite <- (from_bin_into_unfold env d fuel) in *. now apply fill_stopped.
Qed.
Print Assumptions C54_c_array_stopped.
(** Vectors which are read element by element: nothing happens until the size is read. Then the vector is resized, and filled up to the failing element. *)
Theorem C54_vector_stopped : forall env d fuel t old s r e, bitwise_size t = None ->
  from_bin_into env d fuel (TVec t) (VList old) s = (r, Err e) ->
  (varuint32_from_bin s = Err e /\ r = VList old) \/
  exists n s' new, varuint32_from_bin s = Ok (n, s') /\ r = VList new /\
    stopped (from_bin_into env d fuel) e (repeat t (Z.to_nat n)) (firstn (Z.to_nat n) old ++ repeat (fresh_with d t) (Z.to_nat n - List.length old)) s' new.
Proof.
  intros env d fuel t old s r e B H. rewrite from_bin_into_unfold in H. cbn [from_bin_into_with] in H. rewrite B in H. unfold with_length in H.
  destruct (varuint32_from_bin s) as [[n s']|e'|w] eqn:V; [|left; split; congruence|discriminate H]. right. exists n, s'. unfold as_list in H. injection H as <- H. eexists. split; [reflexivity|]. split; [reflexivity|].
  rewrite <- (from_bin_into_unfold env d fuel) in *. fold (resize (fresh_with d t) (Z.to_nat n) old).
  replace (Z.to_nat n) with (List.length (resize (fresh_with d t) (Z.to_nat n) old)) at 1 by (unfold resize; rewrite app_length, firstn_length, repeat_length; lia). now apply fill_stopped.
Qed.
Print Assumptions C54_vector_stopped.
(** Lists and deques keep what they had, get the elements read, and one more which is as the failing decoder left a new element. *)
Theorem C54_list_stopped : forall env d fuel t old s r e,
  from_bin_into env d fuel (TSeq t) (VList old) s = (r, Err e) ->
  (varuint32_from_bin s = Err e /\ r = VList old) \/
  exists n s' k new s'' x, varuint32_from_bin s = Ok (n, s') /\ Z.of_nat k < n /\ r = VList (old ++ new ++ [x]) /\
    in_turn (from_bin_into env d fuel) (repeat t k) (repeat (fresh_with d t) k) s' new s'' /\ from_bin_into env d fuel t (fresh_with d t) s'' = (x, Err e).
Proof.
  intros env d fuel t old s r e H. rewrite from_bin_into_unfold in H. cbn [from_bin_into_with] in H. unfold with_length in H.
  destruct (varuint32_from_bin s) as [[n s']|e'|w] eqn:V; [|left; split; congruence|discriminate H]. right. exists n, s'. unfold as_list in H. injection H as <- H.
  rewrite <- (from_bin_into_unfold env d fuel) in *. clear V s. destruct (Z.leb_spec 0 n) as [P|P]; [|destruct n; try lia; discriminate H].
  assert (G : forall m old s', snd (append (from_bin_into env d fuel t (fresh_with d t)) m old s') = Err e ->
    exists k new s'' x, (k < m)%nat /\ fst (append (from_bin_into env d fuel t (fresh_with d t)) m old s') = old ++ new ++ [x] /\
      in_turn (from_bin_into env d fuel) (repeat t k) (repeat (fresh_with d t) k) s' new s'' /\ from_bin_into env d fuel t (fresh_with d t) s'' = (x, Err e)).
  { clear. induction m as [|m IH]; intros old s H; cbn [append] in *; [discriminate H|]. destruct (from_bin_into env d fuel t (fresh_with d t) s) as [x [s1|e'|w]] eqn:F; cbn [fst snd] in *.
    - destruct (IH _ _ H) as (k & new & s2 & y & K & E & T & Y). exists (S k), (x :: new), s2, y. split; [lia|]. split; [rewrite E, <- app_assoc; reflexivity|]. split; [econstructor; eauto|exact Y].
    - assert (e' = e) by congruence. subst e'. exists O, [], s, x. split; [lia|]. split; [reflexivity|]. split; [constructor|exact F].
    - discriminate H. }
  destruct (G _ _ _ H) as (k & new & s2 & y & K & E & T & Y). exists k, new, s2, y. split; [reflexivity|]. split; [lia|]. split; [now rewrite E|]. auto.
Qed.
Print Assumptions C54_list_stopped.
(** Sets are as after decoding the elements before the failing one; that one is dropped. *)
Theorem C54_set_stopped : forall env d fuel t old s r e,
  bytes_ok s ->
  from_bin_into env d fuel (TSet t) (VList old) s = (r, Err e) ->
  (varuint32_from_bin s = Err e /\ r = VList old) \/
  exists n s' k s'' x, varuint32_from_bin s = Ok (n, s') /\ 0 <= k < n /\
    from_bin_into env d fuel (TSet t) (VList old) (encv k ++ s') = (r, Ok s'') /\ from_bin_into env d fuel t (fresh_with d t) s'' = (x, Err e).
Proof.
  intros env d fuel t old s r e Hs H. rewrite from_bin_into_unfold in H. cbn [from_bin_into_with] in H. unfold with_length in H.
  destruct (varuint32_from_bin s) as [[n s']|e'|w] eqn:V; [|left; split; congruence|discriminate H]. right. exists n, s'. pose proof (proj1 (vu32_ok _ _ _ Hs V)) as Hn. unfold as_list in H. injection H as <- H.
  destruct (emplace_stopped _ _ _ _ _ _ H) as (k & s2 & x & K & E & F). exists (Z.of_nat k), s2, x. split; [reflexivity|]. split; [lia|]. rewrite !from_bin_into_unfold. split; [|exact F].
  cbn [from_bin_into_with]. unfold with_length. rewrite varuint32_roundtrip by (try lia; apply (proj2 (vu32_ok _ _ _ Hs V))). rewrite Nat2Z.id. unfold as_list. rewrite E. cbn [fst snd]. reflexivity.
Qed.
Print Assumptions C54_set_stopped.
Theorem C54_map_stopped : forall env d fuel k t old s r e,
  bytes_ok s ->
  from_bin_into env d fuel (TMap k t) (VList old) s = (r, Err e) ->
  (varuint32_from_bin s = Err e /\ r = VList old) \/
  exists n s' i s'', varuint32_from_bin s = Ok (n, s') /\ 0 <= i < n /\
    from_bin_into env d fuel (TMap k t) (VList old) (encv i ++ s') = (r, Ok s'') /\
    ((exists x, from_bin_into env d fuel k (fresh_with d k) s'' = (x, Err e)) \/
     (exists x s3 y, from_bin_into env d fuel k (fresh_with d k) s'' = (x, Ok s3) /\ from_bin_into env d fuel t (fresh_with d t) s3 = (y, Err e))).
Proof.
  intros env d fuel kt t old s r e Hs H. rewrite from_bin_into_unfold in H. cbn [from_bin_into_with] in H. unfold with_length in H.
  destruct (varuint32_from_bin s) as [[n s']|e'|w] eqn:V; [|left; split; congruence|discriminate H]. right. exists n, s'. pose proof (proj1 (vu32_ok _ _ _ Hs V)) as Hn. unfold as_list in H. injection H as <- H.
  destruct (emplace_stopped _ _ _ _ _ _ H) as (k & s2 & x & K & E & F). exists (Z.of_nat k), s2. split; [reflexivity|]. split; [lia|]. rewrite !from_bin_into_unfold. split.
  - cbn [from_bin_into_with]. unfold with_length. rewrite varuint32_roundtrip by (try lia; apply (proj2 (vu32_ok _ _ _ Hs V))). rewrite Nat2Z.id. unfold as_list. rewrite E. cbn [fst snd]. reflexivity.
  - unfold pair_into in F. destruct (from_bin_into_with d _ kt (fresh_with d kt) s2) as [a [s3|e'|w]]; [|left; exists a; congruence|congruence]. right. exists a, s3.
    destruct (from_bin_into_with d _ t (fresh_with d t) s3) as [b [s4|e'|w]]; try congruence. exists b. split; congruence.
Qed.
Print Assumptions C54_map_stopped.
(** Optionals and variants: nothing happens until the flag or the index is read; then the old contents are gone. *)
Theorem C54_optional_stopped : forall env d fuel t old s r e,
  from_bin_into env d fuel (TOpt t) (VOpt old) s = (r, Err e) ->
  (s = [] /\ r = VOpt old) \/ exists s' x, s = 1 :: s' /\ r = VOpt (Some x) /\ from_bin_into env d fuel t (fresh_with d t) s' = (x, Err e).
Proof.
  intros env d fuel t old s r e H. rewrite from_bin_into_unfold in H. cbn [from_bin_into_with] in H. destruct s as [|b s]; [left; split; congruence|].
  destruct (b =? 0); [discriminate H|]. destruct (Z.eqb_spec b 1) as [->|]; [|discriminate H]. right. exists s. rewrite <- (from_bin_into_unfold env d fuel) in H.
  destruct (from_bin_into env d fuel t (fresh_with d t) s) as [x q] eqn:F. exists x. split; [reflexivity|]. split; congruence.
Qed.
Print Assumptions C54_optional_stopped.
Theorem C54_variant_stopped : forall env d fuel ts i x s r e,
  bytes_ok s ->
  from_bin_into env d fuel (TVariant ts) (VVar i x) s = (r, Err e) ->
  (r = VVar i x /\ (varuint32_from_bin s = Err e \/ exists j s', varuint32_from_bin s = Ok (j, s') /\ Z.of_nat (List.length ts) <= j /\ e = E_bad_variant_index)) \/
  exists j s' t y, varuint32_from_bin s = Ok (Z.of_nat j, s') /\ nth_error ts j = Some t /\ r = VVar (Z.of_nat j) y /\ from_bin_into env d fuel t (fresh_with d t) s' = (y, Err e).
Proof.
  intros env d fuel ts i x s r e Hs H. rewrite from_bin_into_unfold in H. cbn [from_bin_into_with] in H. unfold with_length in H.
  destruct (varuint32_from_bin s) as [[j s']|e'|w] eqn:V; [|left; split; [congruence|left; congruence]|discriminate H]. pose proof (proj1 (vu32_ok _ _ _ Hs V)) as Hj.
  rewrite nthz_map' in H. destruct (nthz ts j) as [t|] eqn:N; cbn [option_map] in H.
  - right. exists (Z.to_nat j), s', t. rewrite <- (from_bin_into_unfold env d fuel) in H. destruct (from_bin_into env d fuel t (fresh_with d t) s') as [y q] eqn:F. exists y.
    rewrite Z2Nat.id by lia. split; [reflexivity|]. split; [apply nthz_error; [exact N|lia]|]. split; congruence.
  - left. split; [congruence|]. right. exists j, s'. split; [reflexivity|]. split; [|congruence]. destruct (Z.leb_spec (Z.of_nat (List.length ts)) j) as [L|L]; [exact L|]. exfalso.
    assert (X : nth_error ts (Z.to_nat j) <> None) by (apply nth_error_Some; lia). apply X. apply nthz_missing; [exact N|lia].
Qed.
Print Assumptions C54_variant_stopped.

(** Strings are resized before their bytes are read. A varuint32 has the bits read so far. *)
Theorem C54_string_stopped : forall env d fuel old s r e,
  from_bin_into env d fuel TString (VStr old) s = (r, Err e) ->
  (varuint32_from_bin s = Err e /\ r = VStr old) \/
  exists n s', varuint32_from_bin s = Ok (n, s') /\ Z.of_nat (List.length s') < n /\ e = E_overrun /\
    r = VStr (firstn (Z.to_nat n) old ++ repeat 0 (Z.to_nat n - List.length old)).
Proof.
  intros env d fuel old s r e H. rewrite from_bin_into_unfold in H. cbn [from_bin_into_with] in H. unfold with_length in H.
  destruct (varuint32_from_bin s) as [[n s']|e'|w]; [|left; split; congruence|discriminate H]. right. exists n, s'. unfold read_raw, sread, check in H.
  destruct (Z.leb_spec n (Z.of_nat (List.length s'))) as [L|L]; cbn [bind] in H; [discriminate H|]. split; [reflexivity|]. split; [exact L|]. split; [congruence|]. fold (resize 0 (Z.to_nat n) old). congruence.
Qed.
Print Assumptions C54_string_stopped.
Lemma dest_loop_read n : forall fuel k dest s, Forall (fun b => 128 <= b) (firstn n s) -> bytes_ok s -> 0 <= k -> 0 <= dest < 2 ^ k -> (n < fuel)%nat -> k + 7 * Z.of_nat n = 35 ->
  dest_loop fuel (dest mod 2 ^ 32) k s = (dest + leb_value (firstn n s) * 2 ^ k) mod 2 ^ 32.
Proof.
  induction n as [|n IH]; intros fuel k dest s F Hs Hk Hd Hf E; (destruct fuel as [|fuel]; [lia|]); cbn [dest_loop].
  - cbn [firstn leb_value]. rewrite Z.mul_0_l, Z.add_0_r. destruct s as [|b s]; [reflexivity|]. destruct (Z.ltb_spec k 35); [lia|reflexivity].
  - destruct s as [|b s]; [cbn [firstn leb_value]; now rewrite Z.mul_0_l, Z.add_0_r|]. destruct (Z.ltb_spec k 35); [|lia]. cbn [firstn] in F. apply Forall_cons_iff in F as [F1 F2].
    apply bytes_ok_cons in Hs as [Hb Hs]. rewrite land128 by assumption. destruct (Z.ltb_spec b 128); [lia|]. cbn [negb]. rewrite land127, group_or by lia.
    pose proof (Z.mod_pos_bound b 128 ltac:(lia)) as Hm. rewrite IH; try assumption; try lia.
    + cbn [firstn leb_value]. rewrite Z.pow_add_r by lia. change (2 ^ 7) with 128. f_equal. lia.
    + rewrite Z.pow_add_r by lia. change (2 ^ 7) with 128. nia.
Qed.
Theorem C54_varuint_stopped : forall env d fuel old s r e, bytes_ok s ->
  from_bin_into env d fuel TVaruint32 (VInt old) s = (r, Err e) -> r = VInt (leb_value (firstn 5 s) mod 2 ^ 32).
Proof.
  intros env d fuel old s r e Hs H. rewrite from_bin_into_unfold in H. cbn [from_bin_into_with] in H.
  destruct (C02_varuint_readers 32 5 varuint32_from_bin s ltac:(left; auto) Hs) as (_ & Ov & Iv & Cases).
  assert (F : Forall (fun b => 128 <= b) (firstn 5 s)).
  { destruct Cases as [(v & q & X)|[X|X]].
    - rewrite X in H. discriminate H.
    - apply Ov in X as [_ X]. apply Forall_forall. intros b Hb. rewrite Forall_forall in X. apply X. rewrite <- (firstn_skipn 5 s). apply in_or_app. now left.
    - now apply Iv in X as [_ X]. }
  pose proof (dest_loop_read 5 12 0 0 s F Hs ltac:(lia) ltac:(lia) ltac:(lia) ltac:(lia)) as D. change (0 mod 2 ^ 32) with 0 in D. rewrite Z.add_0_l, Z.mul_1_r in D.
  destruct (varuint32_from_bin s) as [[]|e'|w]; try discriminate H. rewrite D in H. congruence.
Qed.
Print Assumptions C54_varuint_stopped.

(** Lists, sets and maps are not overwritten: a second decode appends, and a key which was there
    keeps its old value, although the same bytes decode to the new one. *)
Definition some_env (n : nat) : ty := TBool.
Definition some_defaults (n : nat) : val := VBool false.
Theorem C54_stale_refuted :
  (exists bin, to_bin vector_stream some_env 0 (TMap (TInt false 1) (TInt false 1)) (VList [VList [VInt 1; VInt 7]]) [] = Ok bin /\
     from_bin_into some_env some_defaults 0 (TMap (TInt false 1) (TInt false 1)) (VList [VList [VInt 1; VInt 6]]) bin = (VList [VList [VInt 1; VInt 6]], Ok [])) /\
  (exists bin, to_bin vector_stream some_env 0 (TSeq (TInt false 1)) (VList [VInt 1; VInt 2]) [] = Ok bin /\
     let obj := fst (from_bin_into some_env some_defaults 0 (TSeq (TInt false 1)) (VList []) (firstn 2 bin)) in
     snd (from_bin_into some_env some_defaults 0 (TSeq (TInt false 1)) (VList []) (firstn 2 bin)) = Err E_overrun /\
     from_bin_into some_env some_defaults 0 (TSeq (TInt false 1)) obj bin = (VList [VInt 1; VInt 0; VInt 1; VInt 2], Ok [])).
Proof. split; eexists; (split; [reflexivity|]); vm_compute; auto. Qed.
Print Assumptions C54_stale_refuted.

(** Memory is not bounded by the input: five bytes make a vector of up to 2^32-1 strings, or a string
    of as many bytes, before the error is found. *)
Theorem C54_allocation_refuted : forall env d fuel n, 0 < n < 2 ^ 32 ->
  exists bin l b, (List.length bin <= 5)%nat /\
    from_bin_into env d fuel (TVec TString) (VList []) bin = (VList l, Err E_overrun) /\ Z.of_nat (List.length l) = n /\
    from_bin_into env d fuel TString (VStr []) bin = (VStr b, Err E_overrun) /\ Z.of_nat (List.length b) = n.
Proof.
  intros env d fuel n Hn. destruct (C01_varuint32_roundtrip n [] ltac:(lia) ltac:(constructor)) as (bin & E & R & _ & L & _). rewrite app_nil_r in R.
  exists bin, (repeat (VStr []) (Z.to_nat n)), (repeat 0 (Z.to_nat n)). split; [lia|]. rewrite !from_bin_into_unfold. cbn [from_bin_into_with bitwise_size]. unfold with_length. rewrite R.
  split; [|split; [rewrite repeat_length; lia|split; [|rewrite repeat_length; lia]]].
  - unfold resize. rewrite firstn_nil. cbn [app List.length fresh_with]. rewrite Nat.sub_0_r. destruct (Z.to_nat n) as [|m] eqn:M; [lia|]. reflexivity.
  - unfold resize, read_raw, sread, check. rewrite firstn_nil. cbn [app List.length]. rewrite Nat.sub_0_r. destruct (Z.leb_spec n (Z.of_nat 0)); [lia|]. reflexivity.
Qed.
Print Assumptions C54_allocation_refuted.

(** The recursive type of C03: its defaults, and an object with old contents read over. *)
Definition node_defaults (n : nat) : val := VList [VList []; VVar 0 (VStr []); VOpt None; VList []].
Example C54_example :
  defaults node_env node_defaults /\ (forall n, instantiable (node_env n) = true) /\ object node_env (TRef 0) node_val /\
  (exists bin, to_bin vector_stream node_env 2 (TRef 0) node_leaf [] = Ok bin /\
     from_bin_into node_env node_defaults 2 (TRef 0) (VList [VList [VInt 3; VInt 4]; VVar 0 (VStr []); VOpt None; VList [VList [VInt 1; VBool false]]]) bin =
       (VList [VList [VInt (-7); VInt 3; VInt 4]; VVar 0 (VStr (str "hi")); VOpt None; VList [VList [VInt 1; VBool false]]], Ok [])) /\
  from_bin_into node_env node_defaults 2 (TTuple [TVec (TTuple [TBool; TString]); TVaruint32])
    (VList [VList [VList [VBool true; VStr (str "old")]]; VInt 5]) [2; 0; 1; 97; 1; 9] =
    (VList [VList [VList [VBool false; VStr (str "a")]; VList [VBool true; VStr (repeat 0 9)]]; VInt 5], Err E_overrun).
Proof.
  split; [|split; [|split; [|split]]].
  - intros n. split; [reflexivity|]. repeat constructor. apply (OVariant node_env _ 0%nat TString); [reflexivity|]. repeat constructor.
  - reflexivity.
  - apply (C54_values_are_objects node_env 2). reflexivity.
  - exists [2; 249; 255; 3; 0; 0; 2; 104; 105; 0; 1; 1; 1]. split; vm_compute; reflexivity.
  - vm_compute. reflexivity.
Qed.
