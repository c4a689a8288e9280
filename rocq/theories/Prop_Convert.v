(** * Prop_Convert: C52, converting between types member by member *)
From Verif Require Import Base Stream TypedBin TypedSpec Prop_Bin Abi AbiScalar TypedJson TypedJsonSpec TypedJsonFacts Convert ConvertSpec ConvertFacts.

(** Members are matched by name, whatever their order and whichever struct is iterated over: a member of the
    destination which the source has too becomes the converted one, every other member stays as it is. *)
Theorem C52_members : forall c n fs k gs l m,
  JStruct n fs <> JStruct k gs -> NoDup (map fst fs) -> NoDup (map fst gs) -> List.length l = List.length fs -> List.length m = List.length gs ->
  exists r, convert c (JStruct n fs) (JStruct k gs) (VList l) (VList m) = VList r /\ List.length r = List.length gs /\
    (forall i j name f g x y, nth_error fs i = Some (name, f) -> nth_error l i = Some x -> nth_error gs j = Some (name, g) -> nth_error m j = Some y ->
       nth_error r j = Some (convert c f g x y)) /\
    (forall j name g, nth_error gs j = Some (name, g) -> ~ In name (map fst fs) -> nth_error r j = nth_error m j).
Proof. exact convert_struct. Qed.
Print Assumptions C52_members.

(** Objects of the same type are copied; a variant converts as what it holds; vectors get the size of the
    source and an element for each of its elements; optionals are empty or new. *)
Theorem C52_other_types : forall c,
  (forall D t x y, compiles D c t t = true -> plain t -> value_of t x -> value_of t y -> convert c t t x y = x) /\
  (forall ts i t u x y, nth_error ts i = Some t -> convert c (JVariant ts) u (VVar (Z.of_nat i) x) y = convert c t u x y) /\
  (forall a b l m, exists r, convert c (JVec a) (JVec b) (VList l) (VList m) = VList r /\ List.length r = List.length l /\
     forall i x, nth_error l i = Some x -> nth_error r i = Some (convert c a b x (nth i m (jdefault b)))) /\
  (forall a b x y, convert c (JOpt a) (JOpt b) (VOpt None) y = VOpt None /\
     convert c (JOpt a) (JOpt b) (VOpt (Some x)) y = VOpt (Some (convert c a b x (jdefault b)))) /\
  (forall s y, convert c JView (JVec (JScalar B_int8)) (VStr s) y = VList (map (fun b => VInt (to_signed 8 b)) s)) /\
  (forall x y, convert c (JScalar B_varuint32) (JScalar B_uint32) x y = x).
Proof.
  intros c. repeat apply conj.
  - intros D t x y C P Vx Vy. now apply (convert_same D c).
  - intros ts i t u x y N. cbn [convert]. rewrite (nthz_map (convert c)). rewrite TypedJsonRead.nthz_nth, N. reflexivity.
  - intros a b l m. exists (convert_all c a b l m). split; [apply convert_vec|]. split.
    + revert m. induction l as [|x l IH]; intros [|y m]; cbn [convert_all List.length]; auto.
    + revert m. induction l as [|x l IH]; intros m i z H; [destruct i; discriminate H|]. destruct m as [|y m]; cbn [convert_all]; destruct i as [|i]; cbn [nth_error nth] in *;
        try (injection H as ->; reflexivity); rewrite (IH _ _ _ H); [now destruct i|reflexivity].
  - intros a b x y. split; reflexivity.
  - reflexivity.
  - reflexivity.
Qed.
Print Assumptions C52_other_types.

(** Whatever compiles gives an object of the destination's type. *)
Theorem C52_typed : forall D c t u x y, compiles D c t u = true -> plain t -> plain u -> value_of t x -> value_of u y -> value_of u (convert c t u x y).
Proof. exact convert_value. Qed.
Print Assumptions C52_typed.

(** Which of the two structs is iterated over makes no difference to the result. *)
Theorem C52_chooser : forall t u x y, plain t -> plain u -> value_of t x -> value_of u y -> convert First t u x y = convert Second t u x y.
Proof. exact convert_chooser. Qed.
Print Assumptions C52_chooser.

(** Converting to a type which has everything and back gives the object again, whatever the two
    destinations held. *)
Theorem C52_there_and_back : forall D D' c c' t u, wider t u -> compiles D c t u = true -> compiles D' c' u t = true -> plain t -> plain u ->
  forall x y z, value_of t x -> value_of u y -> value_of t z -> convert c' u t (convert c t u x y) z = x.
Proof. exact convert_there_and_back. Qed.
Print Assumptions C52_there_and_back.

(** The result depends on the source only, if the source has a value for every member. *)
Theorem C52_old_value : forall D c t u, fills t u -> compiles D c t u = true -> plain t -> plain u ->
  forall x y y', value_of t x -> value_of u y -> value_of u y' -> convert c t u x y = convert c t u x y'.
Proof. exact convert_fills. Qed.
Print Assumptions C52_old_value.

(** Which conversions of one struct into another compile: those between types declared to be convertible,
    whose common members are convertible, and where (unless the conversion is declared to be narrowing) the
    other struct has every member of the struct which is iterated over. Nothing else is checked. *)
Theorem C52_what_compiles : forall D c n fs k gs, NoDup (map fst fs) -> NoDup (map fst gs) -> JStruct n fs <> JStruct k gs ->
  compiles D c (JStruct n fs) (JStruct k gs) = true <->
  exists kind, kind <> NoConversion /\ kind = match D n k, D k n with NoConversion, Narrowing => Widening | NoConversion, Widening => Narrowing | NoConversion, back => back | declared, _ => declared end /\
    (forall name f g, In (name, f) fs -> In (name, g) gs -> compiles D c f g = true) /\
    (kind = Narrowing \/ (forall name, In name (choose c (map fst fs) (map fst gs)) -> In name (map fst fs) /\ In name (map fst gs))).
Proof.
  intros D c n fs k gs Nf Ng Hd. rewrite (compiles_struct D c n fs k gs Nf Ng). split.
  - intros [X|(Hk & Hm & Hs)]; [contradiction|]. exists (conversion_kind_t D (JStruct n fs) (JStruct k gs)).
    split; [exact Hk|]. split; [|auto]. unfold conversion_kind_t, conversion_kind. destruct (D n k), (D k n); reflexivity.
  - intros (kind & Hk & E & Hm & Hs). right.
    assert (K : conversion_kind_t D (JStruct n fs) (JStruct k gs) = kind) by (rewrite E; unfold conversion_kind_t, conversion_kind; destruct (D n k), (D k n); reflexivity).
    rewrite K. auto.
Qed.
Print Assumptions C52_what_compiles.

(** from_bin of a type with a serialize_as: the object gets the members of the type it is read as and keeps
    the others; converting it to that type gives what was in the data. *)
Theorem C52_serialize_as : forall D D' c t u v obj rest,
  wider t u -> compiles D First t u = true -> compiles D' c u t = true -> plain t -> plain u ->
  value_of t v -> value_of u obj -> wf (fun _ => TStream) 0 (erase t) v = true -> bytes_ok rest ->
  exists bin w, to_bin vector_stream (fun _ => TStream) 0 (erase t) v [] = Ok bin /\
    from_bin_as (fun _ => TStream) 0 t u obj (bin ++ rest) = Ok (w, rest) /\ value_of u w /\
    w = convert First t u v obj /\ forall z, value_of t z -> convert c u t w z = v.
Proof.
  intros D D' c t u v obj rest W C C' Pt Pu Vv Vo Wf B. destruct (C03_native_binary_roundtrip _ _ _ _ Wf) as (bin & T & F).
  exists bin, (convert First t u v obj). split; [exact T|]. unfold from_bin_as. rewrite (F rest B). cbn [bind].
  split; [reflexivity|]. split; [now apply (convert_value D)|]. split; [reflexivity|]. intros z Vz. now apply (C52_there_and_back D D' First c t u).
Qed.
Print Assumptions C52_serialize_as.

(** ** Findings *)
Definition byte_t := JScalar B_uint8.
Definition a_t := JStruct (str "a") [(str "x", byte_t); (str "y", byte_t)].
Definition ab_t := JStruct (str "ab") [(str "y", byte_t); (str "z", byte_t); (str "x", byte_t)].
Definition declare (k : conversion) : declarations := fun n m => if beq n (str "a") && beq m (str "ab") then k else NoConversion.
(** "Fields must match exactly" is not checked: a conversion declared to be strict compiles although the
    destination has another member ([First]) or lacks one ([Second]); and one declared to be narrowing
    ("can discard some fields") compiles although the destination has a member the source does not have. *)
Theorem C52_kinds_refuted :
  compiles (declare Strict) First a_t ab_t = true /\ compiles (declare Strict) Second ab_t a_t = true /\
  compiles (declare Narrowing) First a_t ab_t = true /\ compiles (declare Narrowing) Second a_t ab_t = true /\
  compiles (declare Widening) Second a_t ab_t = false.
Proof. repeat split. Qed.
Print Assumptions C52_kinds_refuted.
(** "Can default construct some fields": they are left as they are. Elements which a vector had before keep
    their other members, so that the result depends on what was there. *)
Theorem C52_stale_refuted : exists x y y',
  value_of (JVec a_t) x /\ value_of (JVec ab_t) y /\ value_of (JVec ab_t) y' /\ compiles (declare Widening) First (JVec a_t) (JVec ab_t) = true /\
  convert First (JVec a_t) (JVec ab_t) x y <> convert First (JVec a_t) (JVec ab_t) x y' /\
  convert First (JVec a_t) (JVec ab_t) x y = VList [VList [VInt 2; VInt 7; VInt 1]; VList [VInt 4; VInt 0; VInt 3]].
Proof.
  exists (VList [VList [VInt 1; VInt 2]; VList [VInt 3; VInt 4]]), (VList [VList [VInt 6; VInt 7; VInt 8]]), (VList []).
  repeat split. vm_compute. discriminate.
Qed.
Print Assumptions C52_stale_refuted.
(** A variant converts to no variant, not even to itself; so a struct with such a member is converted
    only to its own type. *)
Theorem C52_variants_refuted : forall D c ts us, plain (JVariant ts) -> compiles D c (JVariant ts) (JVariant us) = false.
Proof.
  intros D c ts us P. destruct (compiles D c (JVariant ts) (JVariant us)) eqn:C; [|reflexivity]. exfalso. eapply no_variant; [exact C|]. now apply default_value.
Qed.
Print Assumptions C52_variants_refuted.
(** to_bin does not use serialize_as: what it writes is not what from_bin reads. *)
Theorem C52_serialize_as_refuted : exists v obj bin,
  value_of ab_t v /\ value_of ab_t obj /\ to_bin vector_stream (fun _ => TStream) 0 (erase ab_t) v [] = Ok bin /\
  forall w r, from_bin_as (fun _ => TStream) 0 a_t ab_t obj bin <> Ok (w, []) /\ from_bin_as (fun _ => TStream) 0 a_t ab_t obj bin <> Ok (v, r).
Proof.
  exists (VList [VInt 1; VInt 2; VInt 3]), (VList [VInt 0; VInt 0; VInt 0]), [1; 2; 3]. repeat split; vm_compute; discriminate.
Qed.
Print Assumptions C52_serialize_as_refuted.

(** ** A case: nested structs, vectors and optionals, members in another order and of other types *)
Definition small_t := JStruct (str "small") [(str "id", JScalar B_uint64); (str "items", JVec a_t); (str "last", JOpt a_t); (str "v", JScalar B_varuint32)].
Definition big_t := JStruct (str "big") [(str "last", JOpt ab_t); (str "extra", JScalar B_string); (str "items", JVec ab_t); (str "id", JScalar B_uint64); (str "v", JScalar B_varuint32)].
Definition both : declarations := fun n m =>
  if (beq n (str "a") && beq m (str "ab")) || (beq n (str "small") && beq m (str "big")) then Widening else NoConversion.
Definition small_v := VList [VInt 77; VList [VList [VInt 1; VInt 2]; VList [VInt 3; VInt 4]]; VOpt (Some (VList [VInt 5; VInt 6])); VInt 300].
Ltac in_list := repeat (match goal with H : In _ (_ :: _) |- _ => destruct H as [H|H]; [injection H as <- <-|] | H : In _ [] |- _ => destruct H end).
Example C52_hypotheses :
  wider small_t big_t /\ plain small_t /\ plain big_t /\ value_of small_t small_v /\ value_of big_t (jdefault big_t) /\
  fills big_t small_t /\ ~ In (str "extra") (map fst [(str "id", byte_t)]) /\
  compiles both First small_t big_t = true /\ compiles both First big_t small_t = true /\ compiles both Second small_t big_t = false /\
  wf (fun _ => TStream) 0 (erase small_t) small_v = true /\
  convert First small_t big_t small_v (jdefault big_t) =
    VList [VOpt (Some (VList [VInt 6; VInt 0; VInt 5])); VStr []; VList [VList [VInt 2; VInt 0; VInt 1]; VList [VInt 4; VInt 0; VInt 3]]; VInt 77; VInt 300].
Proof.
  assert (Wa : wider a_t ab_t).
  { apply W_struct. intros k f H. in_list; eexists; (split; [|apply W_same]); repeat (try (left; reflexivity); right). }
  assert (Pa : plain a_t).
  { apply P_struct; [repeat constructor; cbn; intuition discriminate|]. intros [k f] H. in_list; apply P_scalar. }
  assert (Pb : plain ab_t).
  { apply P_struct; [repeat constructor; cbn; intuition discriminate|]. intros [k f] H. in_list; apply P_scalar. }
  assert (Fa : fills ab_t a_t).
  { apply F_struct. intros k f H. in_list; eexists; (split; [|apply F_same]); repeat (try (left; reflexivity); right). }
  split; [|split; [|split; [|split; [reflexivity|split; [reflexivity|split; [|split; [|repeat split]]]]]]].
  - apply W_struct. intros k f H. in_list; eexists; (split; [repeat (try (left; reflexivity); right)|]); try apply W_same; [apply W_vec|apply W_opt]; exact Wa.
  - apply P_struct; [repeat constructor; cbn; intuition discriminate|]. intros [k f] H. in_list; try apply P_scalar; [apply P_vec|apply P_opt]; assumption.
  - apply P_struct; [repeat constructor; cbn; intuition discriminate|]. intros [k f] H. in_list; try apply P_scalar; [apply P_opt|apply P_vec]; assumption.
  - apply F_struct. intros k f H. in_list; eexists; (split; [repeat (try (left; reflexivity); right)|]); try apply F_same; [apply F_vec; exact Fa|apply F_opt].
  - intros [X|[]]. discriminate X.
Qed.
