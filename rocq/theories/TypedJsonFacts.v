(** * TypedJsonFacts: the native JSON writer (proofs for C41, C42) *)
From Verif Require Import Base Stream TypedBin TypedSpec Hex Keys Json JsonSpec JsonFacts JsonWrite Utf8 Abi AbiScalar AbiScalarFacts JsonPrint AbiDoc AbiRead AbiReadBack
  TypedJson TypedJsonSpec.

Section JtyInd.
  Variable P : jty -> Prop.
  Hypothesis Hs : forall b, P (JScalar b).
  Hypothesis Hv : forall t, P t -> P (JVec t).
  Hypothesis Ho : forall t, P t -> P (JOpt t).
  Hypothesis Hvar : forall ts, Forall P ts -> P (JVariant ts).
  Hypothesis Hst : forall n fs, Forall (fun f => P (snd f)) fs -> P (JStruct n fs).
  Hypothesis Hp : forall a b, P a -> P b -> P (JPair a b).
  Hypothesis Hm : forall t, P t -> P (JMaybe t).
  Hypothesis Hw : P JView.
  Hypothesis Hq : forall t, P t -> P (JOpaque t).
  Hypothesis He : forall n, P (JEnum n).
  Hypothesis Hr : forall n, P (JRef n).
  Fixpoint jty_ind' (t : jty) : P t :=
    match t with
    | JScalar b => Hs b
    | JVec t => Hv t (jty_ind' t)
    | JOpt t => Ho t (jty_ind' t)
    | JVariant ts => Hvar ts ((fix go l := match l return Forall P l with [] => Forall_nil _ | x :: l' => Forall_cons _ (jty_ind' x) (go l') end) ts)
    | JStruct n fs => Hst n fs ((fix go l := match l return Forall (fun f => P (snd f)) l with
                                             | [] => Forall_nil _ | x :: l' => Forall_cons _ (jty_ind' (snd x)) (go l') end) fs)
    | JPair a b => Hp a b (jty_ind' a) (jty_ind' b)
    | JMaybe t => Hm t (jty_ind' t)
    | JView => Hw
    | JOpaque t => Hq t (jty_ind' t)
    | JEnum n => He n
    | JRef n => Hr n
    end.
End JtyInd.

(** ** Any layout *)
Section Lay.
  Context (nl : nat -> bytes) (cl : bytes).
  Fixpoint lay (n : nat) (j : jv) : bytes :=
    match j with
    | JArr [] => str "[]"
    | JArr l => [91] ++ sep_concat (map (fun x => nl (n + 4)%nat ++ lay (n + 4) x) l) ++ nl n ++ [93]
    | JObj [] => str "{}"
    | JObj l => [123] ++ sep_concat (map (fun kv => nl (n + 4)%nat ++ to_json_string (fst kv) ++ cl ++ lay (n + 4) (snd kv)) l)
                      ++ nl n ++ [125]
    | _ => print j
    end.
End Lay.
Lemma map_ext_Forall {A B} (f g : A -> B) (l : list A) : Forall (fun x => f x = g x) l -> map f l = map g l.
Proof. induction 1; cbn [map]; congruence. Qed.
Lemma lay_print : forall j n, lay (fun _ => []) [58] n j = print j.
Proof.
  induction j as [| b | s | t | l IH | l IH] using jv_ind'; intros n; try reflexivity.
  - destruct l as [|x l]; [reflexivity|]. change (lay (fun _ => []) [58] n (JArr (x :: l))) with
      ([91] ++ sep_concat (map (fun x => [] ++ lay (fun _ => []) [58] (n + 4) x) (x :: l)) ++ [] ++ [93]).
    cbn [print]. do 2 f_equal. f_equal. apply map_ext_Forall. eapply Forall_impl; [|exact IH]. cbv beta. intros a H. apply H.
  - destruct l as [|x l]; [reflexivity|]. change (lay (fun _ => []) [58] n (JObj (x :: l))) with
      ([123] ++ sep_concat (map (fun kv => [] ++ to_json_string (fst kv) ++ [58] ++ lay (fun _ => []) [58] (n + 4) (snd kv)) (x :: l)) ++ [] ++ [125]).
    cbn [print]. do 2 f_equal. f_equal. apply map_ext_Forall. eapply Forall_impl; [|exact IH]. cbv beta. intros a H. cbn [app]. now rewrite H.
Qed.
Lemma lay_layout : forall j n, lay newline (str ": ") n j = layout n j.
Proof. reflexivity. Qed.

(** ** Streams *)
(** Writing in pieces is writing at once. *)
Definition pieces (S : ostream) : Prop :=
  (forall s, owrite S s [] = Ok s) /\ (forall s a b, owrite S s (a ++ b) = let* s := owrite S s a in owrite S s b).
Definition total (S : ostream) : Prop := forall s b, exists s', owrite S s b = Ok s'.
Lemma pieces_size : pieces size_stream.
Proof.
  split; [intros s|intros s a b]; cbn [owrite size_stream bind].
  - change (List.length (@nil Z)) with 0%nat. now rewrite Nat.add_0_r.
  - rewrite app_length. now rewrite Nat.add_assoc.
Qed.
Lemma total_size : total size_stream. Proof. intros s b. eexists. reflexivity. Qed.
Lemma pieces_fixed : pieces fixed_buf_stream.
Proof.
  split; cbn [owrite fixed_buf_stream].
  - intros [d r]. cbn. now rewrite app_nil_r, Nat.sub_0_r.
  - intros [d r] a b. rewrite app_length. unfold check.
    destruct (Nat.leb (List.length a) r) eqn:A; cbn [bind].
    + destruct (Nat.leb (List.length b) (r - List.length a)) eqn:B; cbn [bind].
      * apply Nat.leb_le in A, B. rewrite (proj2 (Nat.leb_le _ _)) by lia. cbn [bind]. rewrite app_assoc. rewrite Nat.sub_add_distr. reflexivity.
      * apply Nat.leb_le in A. apply Nat.leb_gt in B. rewrite (proj2 (Nat.leb_gt _ _)) by lia. reflexivity.
    + apply Nat.leb_gt in A. rewrite (proj2 (Nat.leb_gt _ _)) by lia. reflexivity.
Qed.

(** A stream with hooks which lays out with [nl] and [cl]. *)
Record lays (O : jout) (S : ostream) (nl : nat -> bytes) (cl : bytes) (mk : ost S -> nat -> jost O) : Prop := {
  l_write : forall s n b, jwrite O (mk s n) b = let* s := owrite S s b in Ok (mk s n);
  l_inc : forall s n, jinc O (mk s n) = mk s (n + 4)%nat;
  l_dec : forall s n, jdec O (mk s (n + 4)%nat) = Ok (mk s n);
  l_nl : forall s n, jnl O (mk s n) = let* s := owrite S s (nl n) in Ok (mk s n);
  l_colon : forall s n, jcolon O (mk s n) = let* s := owrite S s cl in Ok (mk s n)
}.
Lemma lays_plain S : pieces S -> lays (plain_out S) S (fun _ => []) [58] (fun s _ => s).
Proof.
  intros [P _]. constructor; intros; cbn [jwrite jinc jdec jnl jcolon plain_out]; auto.
  - destruct (owrite S s b); reflexivity.
  - now rewrite P.
  - destruct (owrite S s [58]); reflexivity.
Qed.
Lemma lays_pretty S : pieces S -> lays (pretty_out S) S newline (str ": ") (fun s n => (s, n)).
Proof.
  intros [_ P]. constructor; intros; cbn [jwrite jinc jdec jnl jcolon pretty_out]; auto.
  - unfold indent_size. rewrite (proj2 (Nat.leb_le _ _)) by lia. cbn [check bind]. now rewrite Nat.add_sub.
  - unfold newline. change (10 :: repeat 32 n) with ([10] ++ repeat 32 n). rewrite P. destruct (owrite S s [10]); reflexivity.
Qed.


Lemma bind_assoc {A B C} (r : res A) (f : A -> res B) (g : B -> res C) : bind (bind r f) g = bind r (fun x => bind (f x) g).
Proof. destruct r; reflexivity. Qed.
Lemma bind_ext {A B} (r : res A) (f g : A -> res B) : (forall x, f x = g x) -> bind r f = bind r g.
Proof. intros H. destruct r; cbn [bind]; auto. Qed.

(** The writer of struct members and the document of a struct as lists. *)
Section Members.
  Context (O : jout) (E : float_lib) (ref : nat -> val -> jost O -> res (jost O)) (dref : nat -> val -> res jv).
  Fixpoint go_write (fs : list (bytes * jty)) (l : list val) (first : bool) (s : jost O) {struct fs} : res (jost O) :=
    match fs, l with
    | [], [] => post O first s
    | f :: fs', x :: l' =>
        let* s := pre O first s in
        let* s := write_member O (fst f) (to_json_with O E ref (snd f) x) s in
        go_write fs' l' false s
    | _, _ => ill
    end.
  Fixpoint go_doc (fs : list (bytes * jty)) (l : list val) {struct fs} : res (list (bytes * jv)) :=
    match fs, l with
    | [], [] => Ok []
    | f :: fs', x :: l' => let* j := tdoc_with E dref (snd f) x in let* ms := go_doc fs' l' in Ok ((fst f, j) :: ms)
    | _, _ => ill
    end.
  Lemma to_json_struct n fs l s : to_json_with O E ref (JStruct n fs) (VList l) s =
    let* s := jwrite O s [123] in let* s := go_write fs l true s in jwrite O s [125].
  Proof. reflexivity. Qed.
  Lemma tdoc_struct n fs l : tdoc_with E dref (JStruct n fs) (VList l) = let* ms := go_doc fs l in Ok (JObj ms).
  Proof. reflexivity. Qed.
End Members.

Section Write.
  Context (O : jout) (S : ostream) (nl : nat -> bytes) (cl : bytes) (mk : ost S -> nat -> jost O).
  Context (L : lays O S nl cl mk) (Hp : pieces S) (E : float_lib).
  Definition w (s : ost S) (n : nat) (b : bytes) : res (jost O) := let* s := owrite S s b in Ok (mk s n).
  Lemma w_then s n m a (k : jost O -> res (jost O)) b : (forall s', k (mk s' m) = w s' n b) -> bind (w s m a) k = w s n (a ++ b).
  Proof. intros H. unfold w. rewrite bind_assoc, (proj2 Hp), bind_assoc. apply bind_ext. intros x. cbn [bind]. rewrite H. reflexivity. Qed.
  Lemma w_nil s n : Ok (mk s n) = w s n []. Proof. unfold w. now rewrite (proj1 Hp). Qed.
  Lemma w_write s n b : jwrite O (mk s n) b = w s n b. Proof. apply (l_write _ _ _ _ _ L). Qed.
  Lemma w_nl s n : jnl O (mk s n) = w s n (nl n). Proof. apply (l_nl _ _ _ _ _ L). Qed.
  Lemma w_colon s n : jcolon O (mk s n) = w s n cl. Proof. apply (l_colon _ _ _ _ _ L). Qed.

  (** The writer [f] writes [t] at indentation [m]. *)
  Definition wrt (m : nat) (f : jost O -> res (jost O)) (t : bytes) : Prop := forall s, f (mk s m) = w s m t.
  (** The tail of a list of elements, after the first. *)
  Definition rest_text (n : nat) (js : list bytes) : bytes := concat (map (fun t => [44] ++ nl (n + 4)%nat ++ t) js) ++ nl n.
  Lemma sep_rest n js : forall t, sep_concat (map (fun t => nl (n + 4)%nat ++ t) (t :: js)) ++ nl n = nl (n + 4)%nat ++ t ++ rest_text n js.
  Proof.
    induction js as [|u js IH]; intros t; [cbn [map sep_concat]; unfold rest_text; cbn [map concat app]; now rewrite <- app_assoc|].
    cbn [map]. rewrite sep_concat_cons. rewrite <- !app_assoc. f_equal. f_equal.
    change (sep_concat ((nl (n + 4)%nat ++ u) :: map (fun t => nl (n + 4)%nat ++ t) js)) with (sep_concat (map (fun t => nl (n + 4)%nat ++ t) (u :: js))).
    rewrite IH. unfold rest_text. cbn [map concat]. rewrite <- !app_assoc. reflexivity.
  Qed.
  Definition items_text' (n : nat) (ts : list bytes) : bytes :=
    match ts with [] => [] | _ => sep_concat (map (fun t => nl (n + 4)%nat ++ t) ts) ++ nl n end.

  Lemma write_rest n : forall fs ts, Forall2 (wrt (n + 4)) fs ts -> forall s, write_items O fs false (mk s (n + 4)%nat) = w s n (rest_text n ts).
  Proof.
    induction 1 as [|f t fs ts F _ IH]; intros s.
    - cbn [write_items post]. rewrite (l_dec _ _ _ _ _ L). cbn [bind]. now rewrite w_nl.
    - cbn [write_items]. unfold pre. rewrite w_write. rewrite bind_assoc.
      unfold rest_text. cbn [map concat]. rewrite <- !app_assoc.
      apply w_then. intros s1. rewrite w_nl. apply w_then. intros s2. rewrite F. apply w_then. intros s3. apply IH.
  Qed.
  Lemma write_all n fs ts : Forall2 (wrt (n + 4)) fs ts -> forall s, write_items O fs true (mk s n) = w s n (items_text' n ts).
  Proof.
    intros F s. destruct F as [|f t fs ts F Fs]; [cbn [write_items post items_text']; apply w_nil|].
    cbn [write_items items_text']. rewrite sep_rest. unfold pre. cbn [bind]. rewrite (l_inc _ _ _ _ _ L), w_nl.
    apply w_then. intros s1. rewrite F. apply w_then. intros s2. now apply write_rest.
  Qed.

  Section Ref.
    Context (ref : nat -> val -> jost O -> res (jost O)) (dref : nat -> val -> res jv) (wref : nat -> val -> bool).
    Hypothesis Href : forall k v j, wref k v = true -> dref k v = Ok j -> forall n, wrt n (ref k v) (lay nl cl n j).

    Lemma member_text n k f t : wrt n f t -> wrt n (write_member O k f) (to_json_string k ++ cl ++ t).
    Proof.
      intros F s. unfold write_member. rewrite w_write. apply w_then. intros s1. rewrite w_colon. apply w_then. exact F.
    Qed.
    Lemma go_rest n : forall fs, Forall (fun f => forall v j, jwf_with wref (snd f) v = true -> tdoc_with E dref (snd f) v = Ok j ->
        forall n, wrt n (to_json_with O E ref (snd f) v) (lay nl cl n j)) fs ->
      forall l ms first, forallb2 (map (fun f => jwf_with wref (snd f)) fs) l = true -> go_doc E dref fs l = Ok ms ->
      exists ws, (forall s, go_write O E ref fs l first s = write_items O ws first s) /\
        Forall2 (wrt n) ws (map (fun kv => to_json_string (fst kv) ++ cl ++ lay nl cl n (snd kv)) ms).
    Proof.
      induction fs as [|f fs IH]; intros F l ms first W D; destruct l as [|x l]; try discriminate.
      - cbn [go_doc] in D. assert (ms = []) by congruence. subst ms. exists []. split; [reflexivity|constructor].
      - apply Forall_cons_iff in F as [F1 F]. cbn [map forallb2] in W. apply andb_prop in W as [W1 W].
        cbn [go_doc] in D. apply bind_Ok in D as (j & D1 & D). apply bind_Ok in D as (ms' & D2 & D).
        assert (ms = (fst f, j) :: ms') by congruence. subst ms.
        destruct (IH F l ms' false W D2) as (ws & Q & Fw).
        exists (write_member O (fst f) (to_json_with O E ref (snd f) x) :: ws). split.
        + intros s. cbn [go_write write_items]. apply bind_ext. intros s1. apply bind_ext. intros s2. apply Q.
        + constructor; [|exact Fw]. cbn [fst snd]. apply member_text. now apply F1.
    Qed.

    Lemma mapm_Ok {A} (rs : list (res A)) xs : mapm rs = Ok xs -> Forall2 (fun r x => r = Ok x) rs xs.
    Proof.
      revert xs. induction rs as [|r rs IH]; intros xs H; cbn [mapm] in H; [assert (xs = []) by congruence; subst; constructor|].
      apply bind_Ok in H as (x & -> & H). apply bind_Ok in H as (ys & H1 & H). assert (xs = x :: ys) by congruence. subst. constructor; auto.
    Qed.
    Lemma lay_arr n js : lay nl cl n (JArr js) = [91] ++ items_text' n (map (lay nl cl (n + 4)) js) ++ [93].
    Proof.
      destruct js as [|j js]; [reflexivity|].
      change (lay nl cl n (JArr (j :: js))) with ([91] ++ sep_concat (map (fun x => nl (n + 4)%nat ++ lay nl cl (n + 4) x) (j :: js)) ++ nl n ++ [93]).
      unfold items_text'. rewrite map_map. cbn [map]. now rewrite <- !app_assoc.
    Qed.
    Lemma lay_obj n ms : lay nl cl n (JObj ms) = [123] ++ items_text' n (map (fun kv => to_json_string (fst kv) ++ cl ++ lay nl cl (n + 4) (snd kv)) ms) ++ [125].
    Proof.
      destruct ms as [|j ms]; [reflexivity|].
      change (lay nl cl n (JObj (j :: ms))) with ([123] ++ sep_concat (map (fun kv => nl (n + 4)%nat ++ to_json_string (fst kv) ++ cl ++ lay nl cl (n + 4) (snd kv)) (j :: ms)) ++ nl n ++ [125]).
      unfold items_text'. rewrite map_map. cbn [map]. now rewrite <- !app_assoc.
    Qed.
    Lemma scalar_lay b v j n : scalar_jv E b v = Ok j -> lay nl cl n j = print j.
    Proof.
      intros H.
      assert (match j with JArr _ | JObj _ => False | _ => True end).
      { assert (forall r, jstr r = Ok j -> match j with JArr _ | JObj _ => False | _ => True end).
        { intros r Q. apply jstr_Ok in Q as (s & _ & ->). exact Logic.I. }
        assert (forall k x, float_jv k x = Ok j -> match j with JArr _ | JObj _ => False | _ => True end).
        { intros k x. unfold float_jv. destruct (_ =? _); [intros Q; injection Q as <-; exact Logic.I|]. destruct (is_nan _ _); [intros Q; injection Q as <-; exact Logic.I|].
          destruct (Fpconv.fpconv_dtoa _) as [[|? ?]|?|?]; try discriminate. cbn [bind]. intros Q; injection Q as <-; exact Logic.I. }
        destruct b; cbn [scalar_jv] in H; try (eapply H0; exact H);
          destruct v as [| | | |l| |]; try discriminate; try (eapply H1; exact H); try (eapply H0; exact H);
          try (injection H as <-; exact Logic.I).
        destruct l as [|[] [|[] [|]]]; try discriminate. eapply H0; exact H. }
      destruct j; try reflexivity; contradiction.
    Qed.
    Lemma nthz_map {A B} (f : A -> B) l : forall i, nthz (map f l) i = option_map f (nthz l i).
    Proof. induction l as [|x l IH]; intros i; cbn [map nthz]; [reflexivity|]. destruct (i =? 0); [reflexivity|apply IH]. Qed.
    Lemma nthz_In {A} (l : list A) : forall i x, nthz l i = Some x -> In x l.
    Proof. induction l as [|y l IH]; intros i x; cbn [nthz]; [discriminate|]. destruct (i =? 0); [left; congruence|right; eauto]. Qed.

    Lemma to_json_with_Ok : forall t v j, jwf_with wref t v = true -> tdoc_with E dref t v = Ok j ->
      forall n, wrt n (to_json_with O E ref t v) (lay nl cl n j).
    Proof.
      induction t as [b|t IH|t IH|ts IH|nm fs IH|a b IHa IHb|t IH| |t IH|names|k] using jty_ind'; intros v j W D n s.
      - cbn [to_json_with]. cbn [tdoc_with] in D. rewrite scalar_to_json_spec by exact W. rewrite D. cbn [bind]. rewrite w_write.
        now rewrite (scalar_lay _ _ _ n D).
      - destruct v as [| | | |l| |]; try discriminate. cbn [jwf_with] in W. cbn [tdoc_with] in D. apply bind_Ok in D as (js & D & Q).
        assert (j = JArr js) by congruence. subst j. cbn [to_json_with]. rewrite w_write, lay_arr. apply w_then. intros s1.
        assert (F : Forall2 (wrt (n + 4)) (map (fun x => to_json_with O E ref t x) l) (map (lay nl cl (n + 4)) js)).
        { apply mapm_Ok in D. clear Q. revert js D. induction l as [|x l IHl]; intros js D; inversion D as [|? j ? js' A B C]; subst; cbn [map]; [constructor|].
          cbn [forallb] in W. apply andb_prop in W as [W1 W2]. constructor; [|apply IHl; auto]. now apply IH. }
        rewrite (write_all n _ _ F). apply w_then. intros s2. apply w_write.
      - destruct v as [| | | | |[x|]|]; try discriminate.
        + cbn [to_json_with]. now apply IH.
        + cbn [tdoc_with] in D. injection D as <-. cbn [to_json_with]. apply w_write.
      - destruct v as [| | | | | |i x]; try discriminate. cbn [jwf_with] in W. cbn [tdoc_with] in D. cbn [to_json_with].
        rewrite !nthz_map in *. destruct (nthz ts i) as [t|] eqn:N; [|discriminate]. cbn [option_map] in *.
        apply bind_Ok in D as (jx & D & Q). assert (j = JArr [JStr (type_name t); jx]) by congruence. subst j.
        rewrite Forall_forall in IH. specialize (IH t (nthz_In _ _ _ N)).
        rewrite lay_arr. cbn [map items_text' sep_concat]. rewrite w_write. rewrite <- !app_assoc. apply w_then. intros s1.
        rewrite (l_inc _ _ _ _ _ L), w_nl. apply w_then. intros s2. rewrite w_write. cbn [lay print]. apply w_then. intros s3.
        rewrite w_write. apply w_then. intros s4. rewrite w_nl. apply w_then. intros s5. rewrite (IH x jx W D). apply w_then. intros s6.
        rewrite (l_dec _ _ _ _ _ L). cbn [bind]. rewrite w_nl. apply w_then. intros s7. apply w_write.
      - destruct v as [| | | |l| |]; try discriminate. rewrite tdoc_struct in D. apply bind_Ok in D as (ms & D & Q).
        assert (j = JObj ms) by congruence. subst j. rewrite to_json_struct, w_write, lay_obj. apply w_then. intros s1.
        destruct (go_rest (n + 4) fs IH l ms true W D) as (ws & Qw & F). rewrite Qw, (write_all n _ _ F). apply w_then. intros s2. apply w_write.
      - cbn [tdoc_with] in D. discriminate.
      - cbn [tdoc_with] in D. discriminate.
      - destruct v as [| | |d| | |]; try discriminate. cbn [tdoc_with] in D. injection D as <-. cbn [to_json_with lay print]. rewrite w_write.
        cbn [jwf_with] in W. apply bytes_okb_spec in W. now rewrite hex_json.
      - cbn [tdoc_with] in D. discriminate.
      - destruct v as [z| | | | | |]; try discriminate. cbn [tdoc_with] in D. cbn [to_json_with]. destruct (nthz names z); [|discriminate].
        injection D as <-. apply w_write.
      - cbn [to_json_with]. cbn [jwf_with] in W. cbn [tdoc_with] in D. now apply Href.
    Qed.
  End Ref.
End Write.

(** ** Failing documents *)
Definition same {A B} (r : res A) (q : res B) : Prop :=
  match r with Ok _ => exists b, q = Ok b | Err e => q = Err e | Undef u => q = Undef u end.
Lemma same_bind {A A' B B'} (r : res A) (q : res A') (f : A -> res B) (g : A' -> res B') :
  same r q -> (forall a b, r = Ok a -> q = Ok b -> same (f a) (g b)) -> same (bind r f) (bind q g).
Proof. intros H K. destruct r as [a|e|u]; cbn [same] in H; [destruct H as [b ->]; cbn [bind]; auto| |]; subst q; reflexivity. Qed.
Lemma same_right {A B C} (r : res A) (q : res B) (g : B -> res C) : same r q -> (forall b, exists c, g b = Ok c) -> same r (bind q g).
Proof. intros H K. destruct r; cbn [same] in *; [destruct H as [b ->]; apply K| |]; subst q; reflexivity. Qed.
Lemma same_left {A B C} (r : res A) (q : res B) (g : A -> res C) : same r q -> (forall b, exists c, g b = Ok c) -> same (bind r g) q.
Proof. intros H K. destruct r as [a|e|u]; cbn [same bind] in *; [destruct (K a) as [c ->]; exact H| |]; exact H. Qed.
Lemma same_skip {A B C} (r : res A) (q : res B) (g : B -> res C) : (exists b, q = Ok b) -> (forall b, same r (g b)) -> same r (bind q g).
Proof. intros [b ->] H. apply H. Qed.

Section Fail.
  Context (O : jout) (E : float_lib) (ref : nat -> val -> jost O -> res (jost O)) (dref : nat -> val -> res jv) (wref : nat -> val -> bool).
  (** Every hook works, in states that satisfy an invariant that counts the open brackets. *)
  Context (at_ : nat -> jost O -> Prop).
  Hypothesis Twrite : forall n s b, at_ n s -> exists s', jwrite O s b = Ok s' /\ at_ n s'.
  Hypothesis Tinc : forall n s, at_ n s -> at_ (n + 4)%nat (jinc O s).
  Hypothesis Tdec : forall n s, at_ (n + 4)%nat s -> exists s', jdec O s = Ok s' /\ at_ n s'.
  Hypothesis Tnl : forall n s, at_ n s -> exists s', jnl O s = Ok s' /\ at_ n s'.
  Hypothesis Tcolon : forall n s, at_ n s -> exists s', jcolon O s = Ok s' /\ at_ n s'.
  (** [q] ends like [r], in a state at the same depth. *)
  Definition ends {A} (r : res A) (n : nat) (q : res (jost O)) : Prop :=
    match r with Ok _ => exists s', q = Ok s' /\ at_ n s' | Err e => q = Err e | Undef u => q = Undef u end.
  Hypothesis Href : forall k v n s, wref k v = true -> at_ n s -> ends (dref k v) n (ref k v s).

  Lemma ends_step {A} (r : res A) n m q (k : jost O -> res (jost O)) :
    (exists s', q = Ok s' /\ at_ m s') -> (forall s', at_ m s' -> ends r n (k s')) -> ends r n (bind q k).
  Proof. intros (s' & -> & H) K. now apply K. Qed.
  Lemma ends_bind {A B} (r : res A) (f : A -> res B) n m q (k : jost O -> res (jost O)) :
    ends r m q -> (forall a s', r = Ok a -> at_ m s' -> ends (f a) n (k s')) -> ends (bind r f) n (bind q k).
  Proof. intros H K. destruct r as [a|e|u]; cbn [ends] in H; [destruct H as (s' & -> & H); cbn [bind]; auto| |]; subst q; reflexivity. Qed.
  Lemma ends_ok {A} (r : res A) n q : (exists s', q = Ok s' /\ at_ n s') -> (exists a, r = Ok a) -> ends r n q.
  Proof. intros H [a ->]. exact H. Qed.

  Lemma items_end n : forall fs rs, Forall2 (fun f (r : res jv) => forall s, at_ (n + 4)%nat s -> ends r (n + 4) (f s)) fs rs ->
    forall s, at_ (n + 4)%nat s -> ends (mapm rs) n (write_items O fs false s).
  Proof.
    induction 1 as [|f r fs rs F _ IH]; intros s H; cbn [write_items mapm].
    - cbn [post]. destruct (Tdec _ _ H) as (s1 & -> & H1). cbn [bind]. now apply Tnl.
    - unfold pre. destruct (Twrite _ _ [44] H) as (s1 & -> & H1). cbn [bind]. destruct (Tnl _ _ H1) as (s2 & -> & H2). cbn [bind].
      apply ends_bind with (m := (n + 4)%nat); [now apply F|]. intros a s3 _ H3.
      specialize (IH s3 H3). destruct (mapm rs); cbn [bind ends] in *; auto.
  Qed.
  Lemma all_items_end n fs rs : Forall2 (fun f (r : res jv) => forall s, at_ (n + 4)%nat s -> ends r (n + 4) (f s)) fs rs ->
    forall s, at_ n s -> ends (mapm rs) n (write_items O fs true s).
  Proof.
    intros F s H. destruct F as [|f r fs rs F Fs]; cbn [write_items mapm post].
    - exists s. auto.
    - unfold pre. cbn [bind]. destruct (Tnl _ _ (Tinc _ _ H)) as (s2 & -> & H2). cbn [bind].
      apply ends_bind with (m := (n + 4)%nat); [now apply F|]. intros a s3 _ H3.
      pose proof (items_end n _ _ Fs s3 H3) as Q. destruct (mapm rs); cbn [bind ends] in *; auto.
  Qed.
  Lemma go_end n : forall fs, Forall (fun f => forall v n s, jwf_with wref (snd f) v = true -> at_ n s -> ends (tdoc_with E dref (snd f) v) n (to_json_with O E ref (snd f) v s)) fs ->
    forall l (first : bool) s, forallb2 (map (fun f => jwf_with wref (snd f)) fs) l = true ->
    at_ (if first then n else (n + 4)%nat) s -> ends (go_doc E dref fs l) n (go_write O E ref fs l first s).
  Proof.
    induction fs as [|f fs IH]; intros F l first s W H; destruct l as [|x l]; try discriminate; cbn [go_doc go_write].
    - destruct first; cbn [post]; [exists s; auto|]. destruct (Tdec _ _ H) as (s1 & -> & H1). cbn [bind]. now apply Tnl.
    - apply Forall_cons_iff in F as [F1 F]. cbn [map forallb2] in W. apply andb_prop in W as [W1 W].
      apply ends_step with (m := (n + 4)%nat).
      { unfold pre. destruct first; cbn [bind].
        - apply Tnl. now apply Tinc.
        - destruct (Twrite _ _ [44] H) as (s1 & -> & H1). cbn [bind]. now apply Tnl. }
      intros s1 H1. unfold write_member. destruct (Twrite _ _ (to_json_string (fst f)) H1) as (s2 & -> & H2). cbn [bind].
      destruct (Tcolon _ _ H2) as (s3 & -> & H3). cbn [bind].
      apply ends_bind with (m := (n + 4)%nat); [now apply F1|]. intros a s4 _ H4.
      specialize (IH F l false s4 W H4). destruct (go_doc E dref fs l); cbn [bind ends] in *; auto.
  Qed.
  Lemma to_json_with_ends : forall t v n s, jwf_with wref t v = true -> at_ n s -> ends (tdoc_with E dref t v) n (to_json_with O E ref t v s).
  Proof.
    induction t as [b|t IH|t IH|ts IH|nm fs IH|a b IHa IHb|t IH| |t IH|names|k] using jty_ind'; intros v n s W H.
    - cbn [to_json_with tdoc_with]. rewrite scalar_to_json_spec by exact W. destruct (scalar_jv E b v) as [j|e|u]; cbn [bind ends]; auto.
    - destruct v as [| | | |l| |]; try discriminate. cbn [jwf_with] in W. cbn [tdoc_with to_json_with].
      apply ends_step with (m := n); [now apply Twrite|]. intros s1 H1.
      apply ends_bind with (m := n); [|intros js s2 _ H2; now apply Twrite].
      apply all_items_end; [|exact H1]. clear - W IH. induction l as [|x l IHl]; cbn [map]; constructor.
      + intros s Hs. cbn [forallb] in W. apply andb_prop in W as [W1 W2]. now apply IH.
      + cbn [forallb] in W. apply andb_prop in W as [W1 W2]. auto.
    - destruct v as [| | | | |[x|]|]; try discriminate.
      + cbn [to_json_with tdoc_with]. now apply IH.
      + cbn [to_json_with tdoc_with ends]. now apply Twrite.
    - destruct v as [| | | | | |i x]; try discriminate. cbn [jwf_with] in W. cbn [tdoc_with to_json_with].
      rewrite !nthz_map in *. destruct (nthz ts i) as [t|] eqn:N; [|discriminate]. cbn [option_map] in *.
      rewrite Forall_forall in IH. specialize (IH t (nthz_In _ _ _ N)).
      apply ends_step with (m := n); [now apply Twrite|]. intros s1 H1.
      apply ends_step with (m := (n + 4)%nat); [apply Tnl; now apply Tinc|]. intros s2 H2.
      apply ends_step with (m := (n + 4)%nat); [now apply Twrite|]. intros s3 H3.
      apply ends_step with (m := (n + 4)%nat); [now apply Twrite|]. intros s4 H4.
      apply ends_step with (m := (n + 4)%nat); [now apply Tnl|]. intros s5 H5.
      apply ends_bind with (m := (n + 4)%nat); [now apply IH|]. intros j s6 _ H6. cbn [ends].
      destruct (Tdec _ _ H6) as (s7 & -> & H7). cbn [bind]. destruct (Tnl _ _ H7) as (s8 & -> & H8). cbn [bind]. now apply Twrite.
    - destruct v as [| | | |l| |]; try discriminate. rewrite tdoc_struct, to_json_struct.
      apply ends_step with (m := n); [now apply Twrite|]. intros s1 H1.
      apply ends_bind with (m := n); [|intros js s2 _ H2; now apply Twrite].
      now apply go_end.
    - reflexivity.
    - reflexivity.
    - destruct v as [| | |d| | |]; try discriminate. cbn [tdoc_with to_json_with ends]. now apply Twrite.
    - reflexivity.
    - destruct v as [z| | | | | |]; try discriminate. cbn [tdoc_with to_json_with]. destruct (nthz names z); cbn [ends]; auto.
    - cbn [to_json_with tdoc_with]. cbn [jwf_with] in W. now apply Href.
  Qed.
End Fail.

(** ** The whole writers *)
Lemma to_json_Ok O S nl cl mk (L : lays O S nl cl mk) (Hp : pieces S) E env : forall fuel t v j,
  jwf env fuel t v = true -> tdoc E env fuel t v = Ok j -> forall s n, to_json O E env fuel t v (mk s n) = w O S mk s n (lay nl cl n j).
Proof.
  induction fuel as [|fuel IH]; intros t v j W D s n; unfold to_json; fold to_json.
  - eapply (to_json_with_Ok O S nl cl mk L Hp E) with (wref := fun n v => false) (dref := fun n v => Undef "stack"); [discriminate|exact W|exact D].
  - eapply (to_json_with_Ok O S nl cl mk L Hp E) with (wref := fun n v => jwf env fuel (env n) v) (dref := fun n v => tdoc E env fuel (env n) v); [|exact W|exact D].
    intros k v' j' W' D' m s'. now apply IH.
Qed.
Definition ready (S : ostream) := total S.
Lemma to_json_ends_gen O E env (at_ : nat -> jost O -> Prop) :
  (forall n s b, at_ n s -> exists s', jwrite O s b = Ok s' /\ at_ n s') ->
  (forall n s, at_ n s -> at_ (n + 4)%nat (jinc O s)) ->
  (forall n s, at_ (n + 4)%nat s -> exists s', jdec O s = Ok s' /\ at_ n s') ->
  (forall n s, at_ n s -> exists s', jnl O s = Ok s' /\ at_ n s') ->
  (forall n s, at_ n s -> exists s', jcolon O s = Ok s' /\ at_ n s') ->
  forall fuel t v n s, jwf env fuel t v = true -> at_ n s -> ends O at_ (tdoc E env fuel t v) n (to_json O E env fuel t v s).
Proof.
  intros A B C D F. induction fuel as [|fuel IH]; intros t v n s W H.
  - eapply (to_json_with_ends O E _ (fun n v => Undef "stack") (fun n v => false) at_ A B C D F); [discriminate|exact W|exact H].
  - eapply (to_json_with_ends O E _ (fun n v => tdoc E env fuel (env n) v) (fun n v => jwf env fuel (env n) v) at_ A B C D F); [|exact W|exact H].
    intros k v' m s' W' H'. now apply IH.
Qed.
Lemma size_ends E env fuel t v : jwf env fuel t v = true -> same (tdoc E env fuel t v) (to_json (plain_out size_stream) E env fuel t v 0%nat).
Proof.
  intros W. pose proof (to_json_ends_gen (plain_out size_stream) E env (fun _ _ => True)) as Q.
  specialize (Q ltac:(intros; eexists; split; [reflexivity|exact Logic.I]) ltac:(auto) ltac:(intros; eexists; split; [reflexivity|exact Logic.I])
    ltac:(intros; eexists; split; [reflexivity|exact Logic.I]) ltac:(intros; eexists; split; [reflexivity|exact Logic.I]) fuel t v 0%nat 0%nat W Logic.I).
  unfold ends in Q. unfold same. destruct (tdoc E env fuel t v); auto. destruct Q as (s' & Q & _). eauto.
Qed.
Lemma psize_ends E env fuel t v : jwf env fuel t v = true -> same (tdoc E env fuel t v) (to_json (pretty_out size_stream) E env fuel t v (0%nat, 0%nat)).
Proof.
  intros W. pose proof (to_json_ends_gen (pretty_out size_stream) E env (fun n s => snd s = n)) as Q.
  assert (Q1 := Q ltac:(intros n [s m] b <-; eexists; split; reflexivity) ltac:(intros n [s m] <-; reflexivity)). clear Q.
  assert (Q2 := Q1 ltac:(intros n [s m]; cbn [snd]; intros ->; cbn [jdec pretty_out]; unfold indent_size; rewrite (proj2 (Nat.leb_le _ _)) by lia;
     eexists; split; [reflexivity|]; cbn [snd]; apply Nat.add_sub)). clear Q1.
  specialize (Q2 ltac:(intros n [s m] <-; eexists; split; reflexivity) ltac:(intros n [s m] <-; eexists; split; reflexivity) fuel t v 0%nat (0%nat, 0%nat) W eq_refl).
  unfold ends in Q2. unfold same. destruct (tdoc E env fuel t v); auto. destruct Q2 as (s' & Q & _). eauto.
Qed.

Lemma bind_rew {A B} (x y : res A) (f : A -> res B) r : x = y -> bind y f = r -> bind x f = r.
Proof. now intros ->. Qed.
Lemma convert_to_json_spec E env fuel t v : jwf env fuel t v = true ->
  convert_to_json E env fuel t v = let* j := tdoc E env fuel t v in Ok (print j).
Proof.
  intros W. unfold convert_to_json. destruct (tdoc E env fuel t v) as [j|e|u] eqn:D; cbn [bind].
  - rewrite (to_json_Ok _ _ _ _ _ (lays_plain _ pieces_size) pieces_size E env fuel t v j W D 0%nat 0%nat). rewrite lay_print.
    unfold w. cbn [owrite size_stream bind].
    rewrite Nat.add_0_l.
    pose proof (to_json_Ok _ _ _ _ _ (lays_plain _ pieces_fixed) pieces_fixed E env fuel t v j W D ([], List.length (print j)) 0%nat) as Q.
    refine (bind_rew _ _ _ _ Q _). clear Q.
    rewrite lay_print.
    unfold w. cbn [owrite fixed_buf_stream]. rewrite (proj2 (Nat.leb_le _ _)) by lia. cbn [check bind]. rewrite Nat.sub_diag. reflexivity.
  - pose proof (size_ends E env fuel t v W) as Q. rewrite D in Q. cbn [same] in Q. now rewrite Q.
  - pose proof (size_ends E env fuel t v W) as Q. rewrite D in Q. cbn [same] in Q. now rewrite Q.
Qed.
Lemma format_json_spec E env fuel t v : jwf env fuel t v = true ->
  format_json E env fuel t v = let* j := tdoc E env fuel t v in Ok (layout 0 j).
Proof.
  intros W. unfold format_json. destruct (tdoc E env fuel t v) as [j|e|u] eqn:D; cbn [bind].
  - refine (bind_rew _ _ _ _ (to_json_Ok _ _ _ _ _ (lays_pretty _ pieces_size) pieces_size E env fuel t v j W D 0%nat 0%nat) _). rewrite lay_layout.
    unfold w. cbn [owrite size_stream bind].
    rewrite Nat.add_0_l.
    pose proof (to_json_Ok _ _ _ _ _ (lays_pretty _ pieces_fixed) pieces_fixed E env fuel t v j W D ([], List.length (layout 0 j)) 0%nat) as Q.
    refine (bind_rew _ _ _ _ Q _). clear Q.
    cbv beta; change (lay newline (str ": ") 0 j) with (layout 0 j).
    unfold w. cbn [owrite fixed_buf_stream]. rewrite (proj2 (Nat.leb_le _ _)) by lia. cbn [check bind fst snd]. rewrite Nat.sub_diag. reflexivity.
  - pose proof (psize_ends E env fuel t v W) as Q. rewrite D in Q. cbn [same] in Q. refine (bind_rew _ _ _ _ Q _). reflexivity.
  - pose proof (psize_ends E env fuel t v W) as Q. rewrite D in Q. cbn [same] in Q. refine (bind_rew _ _ _ _ Q _). reflexivity.
Qed.
