(** * C41, C42: JSON of native types *)
From Verif Require Import Base Stream TypedBin TypedSpec KeysFacts Keys Utf8 Json JsonSpec JsonFacts JsonSound JsonWrite JsonPrint Prop_Json Asset Abi AbiScalar AbiScalarFacts AbiDoc
  AbiRead AbiJsonText AbiJsonSafe AbiReadBack Prop_AbiBin Prop_AbiJson TypedJson TypedJsonSpec TypedJsonFacts TypedJsonRead TypedJsonText TypedJsonBack.

(** ** C41: writing *)
(** convert_to_json writes the compact text of the document of the value: a JSON text of that
    document (with the bytes that are not UTF-8 replaced, C25). It fails only where a scalar
    has no text. *)
Theorem C41_writes_the_document E env fuel t v :
  jwf env fuel t v = true ->
  convert_to_json E env fuel t v = (let* j := tdoc E env fuel t v in Ok (print j)) /\
  ((forall n, names_bytes (env n)) -> names_bytes t ->
   forall text, convert_to_json E env fuel t v = Ok text ->
   exists j c, tdoc E env fuel t v = Ok j /\ clean j c /\ json_text c text).
Proof.
  intros W. pose proof (convert_to_json_spec E env fuel t v W) as Q. split; [exact Q|]. intros He Nt text H. rewrite Q in H.
  apply bind_Ok in H as (j & D & H). assert (text = print j) by congruence. subst text.
  destruct (print_text j (tdoc_writable E env He fuel t v j Nt W D)) as (c & C & T). exists j, c. auto.
Qed.
Print Assumptions C41_writes_the_document.

(** ** C41: reading *)
Lemma short_small text j : bytes_ok text -> short text -> tokenize text = (tokens j, None) -> TypedJsonRead.small j.
Proof. intros Hb Hs T. destruct (tokenize_tokens text _ _ Hb Hs T) as [_ L]. unfold TypedJsonRead.small, tsize. unfold short in Hs. lia. Qed.
(** from_json accepts exactly the JSON documents which can be read at the type, and
    leaves the reader at the end of the text. [treads] says what is read: members are
    found by name in any order, members without a field are ignored, fields without a member
    keep what they hold, vectors are appended to. *)
Theorem C41_reads_exactly E t cur text v s :
  bytes_ok text -> short text ->
  from_json E t cur (open_json text) = Ok (v, s) <->
  s = JS [] None /\ exists j, json_text_lax j (cstr text) /\ treads E t cur j v.
Proof.
  intros Hb Hs. unfold open_json. split.
  - intros H. destruct (doc_cases text Hb) as [(j & J & T)|(ts & e & T)].
    + rewrite T in H. rewrite <- (app_nil_r (tokens j)) in H. apply run_reads in H as [-> R]; [|eapply short_small; eauto]. split; [reflexivity|eauto].
    + exfalso. rewrite T in H. destruct (tokenize_tokens text _ _ Hb Hs T) as [_ L].
      eapply (malformed_fails E t cur text ts e v s Hb); eauto. unfold short in Hs. lia.
  - intros (-> & j & J & R). pose proof (doc_tokens j text J) as T. rewrite T. rewrite <- (app_nil_r (tokens j)).
    apply (proj1 (reads_run E)); [exact R|]. eapply short_small; eauto.
Qed.
Print Assumptions C41_reads_exactly.

(** Reading any text into an object of the type: a value or an exception, never undefined behaviour
    or an endless loop, except for a date whose seconds do not fit an int (where signed
    overflow is undefined). *)
Theorem C41_reading_defined E t cur text w :
  bytes_ok text -> short text -> readable t = true -> shaped t cur = true ->
  from_json E t cur (open_json text) = Undef w -> w = "signed overflow"%string /\ ov E = Strict.
Proof.
  intros Hb Hs Rd Sh H. unfold open_json in H. destruct (doc_cases text Hb) as [(j & J & T)|(ts & e & T)]; rewrite T in H.
  - pose proof (from_json_safe E t cur Rd Sh _ _ H) as [D|[-> _]]; [exact D|]. rewrite <- (app_nil_r (tokens j)) in H.
    exfalso. eapply from_json_loopless; [|exact H]. eapply short_small; eauto.
  - pose proof (from_json_safe E t cur Rd Sh _ _ H) as [D|[-> X]]; [exact D|discriminate X].
Qed.
Print Assumptions C41_reading_defined.

(** ** C41: round trip *)
Lemma distinct_bytes : forall t, names_distinct t -> two_way t = true -> names_bytes t.
Proof.
  induction t as [b|t IH|t IH|tys IH|nm fs IH|a b IHa IHb|t IH| |t IH|names|k] using jty_ind'; intros N T; try exact Logic.I; try discriminate T; cbn [names_distinct names_bytes two_way] in *; auto.
  - destruct N as (_ & N2 & N3). rewrite fold_and_In in *. rewrite forallb_forall in T. split.
    + eapply Forall_impl; [|exact N2]. cbv beta. intros a. apply utf8_bytes_ok.
    + rewrite Forall_forall in *. auto.
  - destruct N as (_ & N2 & N3). rewrite fold_and_In in *. rewrite forallb_forall in T. split.
    + eapply Forall_impl; [|exact N2]. cbv beta. intros a. apply utf8_bytes_ok.
    + rewrite Forall_forall in *. auto.
Qed.
Lemma written_text E env fuel t v :
  jwf env fuel t v = true -> two_way t = true -> names_distinct t -> survives E t v -> ov E = Wrap ->
  exists j, tdoc E env fuel t v = Ok j /\ good E t v j /\ bytes_ok (print j) /\ tokenize (print j) = (tokens j, None).
Proof.
  intros Wf T N S W.
  assert (B : exists j, tdoc E env fuel t v = Ok j /\ good E t v j) by (destruct fuel as [|fuel]; [eapply (tdoc_back E _ _ W)|eapply (tdoc_back E _ _ W)]; eauto).
  destruct B as (j & D & R & U & Nn). exists j. split; [exact D|]. split; [exact (conj R (conj U Nn))|].
  assert (Wr : writable j).
  { destruct fuel as [|fuel].
    - refine (tdoc_with_writable E (fun n v => Undef "stack") (fun n v => false) _ t v j (distinct_bytes t N T) Wf D). discriminate.
    - clear - N T Wf D. apply distinct_bytes in N; [|exact T].
      assert (K : forall ref rwf (Href : forall n v j, rwf n v = true -> ref n v = Ok j -> writable j) t v j, two_way t = true -> names_bytes t -> jwf_with rwf t v = true ->
        tdoc_with E ref t v = Ok j -> writable j) by (intros; eapply (tdoc_with_writable E ref rwf); eauto).
      (* the recursive types are not reached: [two_way] excludes them *)
      assert (X : forall t v, two_way t = true -> tdoc_with E (fun n v => tdoc E env fuel (env n) v) t v = tdoc_with E (fun _ _ => Undef "stack") t v /\
          jwf_with (fun n v => jwf env fuel (env n) v) t v = jwf_with (fun _ _ => false) t v).
      { clear. induction t as [b|t IH|t IH|tys IH|nm fs IH|a b IHa IHb|t IH| |t IH|names|k] using jty_ind'; intros v T; try discriminate T; try (split; reflexivity).
        - destruct v as [| | | |l| |]; try (split; reflexivity). cbn [two_way tdoc_with jwf_with] in *. split.
          + f_equal. f_equal. apply map_ext. intros x. now apply IH.
          + induction l as [|x l IHl]; [reflexivity|]. cbn [forallb]. now rewrite (proj2 (IH x T)), IHl.
        - destruct v as [| | | | |[x|]|]; try (split; reflexivity). cbn [two_way tdoc_with jwf_with] in *. now apply IH.
        - destruct v as [| | | | | |i x]; try (split; reflexivity). cbn [two_way tdoc_with jwf_with] in *. rewrite !nthz_map. destruct (nthz tys i) as [t|] eqn:Ni; [|split; reflexivity].
          apply nthz_In in Ni. rewrite forallb_forall in T. rewrite Forall_forall in IH. cbn [option_map]. destruct (IH t Ni x (T t Ni)) as [-> ->]. split; reflexivity.
        - destruct v as [| | | |l| |]; try (split; reflexivity). cbn [two_way tdoc_with jwf_with] in *. split.
          + f_equal. revert l. induction fs as [|[k t] fs IHf]; intros l; destruct l as [|x l]; try reflexivity. cbn [forallb snd fst] in *. apply andb_true_iff in T as [T1 T2].
            apply Forall_cons_iff in IH as [I1 I2]. cbn [snd] in I1. rewrite (proj1 (I1 x T1)). now rewrite (IHf I2 T2).
          + revert l. induction fs as [|[k t] fs IHf]; intros l; destruct l as [|x l]; try reflexivity. cbn [forallb snd fst map forallb2] in *. apply andb_true_iff in T as [T1 T2].
            apply Forall_cons_iff in IH as [I1 I2]. cbn [snd] in I1. rewrite (proj2 (I1 x T1)). now rewrite (IHf I2 T2). }
      cbn [tdoc jwf] in D, Wf. destruct (X t v T) as [X1 X2]. rewrite X1 in D. rewrite X2 in Wf.
      eapply (K (fun _ _ => Undef "stack") (fun _ _ => false)); eauto; discriminate. }
  pose proof (print_bytes j Wr) as Hb. split; [exact Hb|]. pose proof (print_text_utf8 j Wr U) as J. now apply C44_reads_every_document in J.
Qed.
(** A value is printed and read back into a fresh object as the same value; the reader
    is left at the end. The types are those with a writer and a reader, the field names of a
    struct and the type names of a variant are distinct UTF-8, the value has no scalar
    which is not read back ([plain_value], C29) and no empty optional in an optional. *)
Theorem C41_roundtrip E env fuel t v :
  jwf env fuel t v = true -> two_way t = true -> names_distinct t -> survives E t v -> ov E = Wrap ->
  exists text, convert_to_json E env fuel t v = Ok text /\ bytes_ok text /\
    (short text -> from_json E t (jdefault t) (open_json text) = Ok (v, JS [] None)).
Proof.
  intros Wf T N S W. rewrite convert_to_json_spec by exact Wf. destruct (written_text E env fuel t v Wf T N S W) as (j & D & (R & _) & Hb & J).
  rewrite D. cbn [bind]. exists (print j). split; [reflexivity|]. split; [exact Hb|]. intros Hs.
  unfold open_json. rewrite J. rewrite <- (app_nil_r (tokens j)). apply (proj1 (reads_run E)); [exact R|]. eapply short_small; eauto.
Qed.
Print Assumptions C41_roundtrip.

(** An empty optional in an optional is lost. *)
Theorem C41_nested_optional_refuted E : exists text,
  convert_to_json E (fun _ => JView) 0 (JOpt (JOpt (JScalar B_bool))) (VOpt (Some (VOpt None))) = Ok text /\
  from_json E (JOpt (JOpt (JScalar B_bool))) (VOpt None) (open_json text) = Ok (VOpt None, JS [] None).
Proof. exists (str "null"). split; reflexivity. Qed.
Print Assumptions C41_nested_optional_refuted.
(** A key that comes twice is read twice into the same field: the elements of both add up. *)
Theorem C41_repeated_key_appends E :
  from_json E (JStruct (str "s") [(str "v", JVec (JScalar B_bool))]) (VList [VList []]) (open_json (str "{""v"":[true],""v"":[false]}")) =
  Ok (VList [VList [VBool true; VBool false]], JS [] None).
Proof. vm_compute. reflexivity. Qed.
Print Assumptions C41_repeated_key_appends.

(** ** C42 *)
(** The two writers fail alike or write the same document: the formatted text without the
    white space outside strings is the compact text, both are JSON texts of the same
    document and give the same tokens, and the formatted text is the indented layout. *)
Theorem C42_format_json E env fuel t v :
  jwf env fuel t v = true -> (forall n, names_bytes (env n)) -> names_bytes t ->
  match tdoc E env fuel t v with
  | Ok j => exists compact pretty c,
      convert_to_json E env fuel t v = Ok compact /\ format_json E env fuel t v = Ok pretty /\
      pretty = layout 0 j /\ strip Outside pretty = compact /\
      clean j c /\ json_text c compact /\ json_text c pretty /\
      tokenize pretty = tokenize compact /\ open_json pretty = open_json compact
  | Err e => convert_to_json E env fuel t v = Err e /\ format_json E env fuel t v = Err e
  | Undef w => convert_to_json E env fuel t v = Undef w /\ format_json E env fuel t v = Undef w
  end.
Proof.
  intros W He Nt. rewrite convert_to_json_spec, format_json_spec by exact W.
  destruct (tdoc E env fuel t v) as [j|e|u] eqn:D; cbn [bind]; [|split; reflexivity|split; reflexivity].
  pose proof (tdoc_writable E env He fuel t v j Nt W D) as Wr.
  destruct (layout_value j Wr) as (c & C & T1 & T2).
  assert (J1 : json_text c (print j)). { exists [], (print j), []. split; [constructor|]. split; [exact T1|]. split; [constructor|]. now rewrite app_nil_r. }
  assert (J2 : json_text c (layout 0 j)). { exists [], (layout 0 j), []. split; [constructor|]. split; [apply T2|]. split; [constructor|]. now rewrite app_nil_r. }
  assert (Q : tokenize (layout 0 j) = tokenize (print j)) by now rewrite (C44_reads_every_document _ _ J1), (C44_reads_every_document _ _ J2).
  exists (print j), (layout 0 j), c. split; [reflexivity|]. split; [reflexivity|]. split; [reflexivity|]. split.
  - rewrite <- (app_nil_r (layout 0 j)), strip_layout by exact Wr. cbn [strip]. apply app_nil_r.
  - split; [exact C|]. split; [exact J1|]. split; [exact J2|]. split; [exact Q|]. unfold open_json. now rewrite Q.
Qed.
Print Assumptions C42_format_json.

(** ** Examples *)
Definition ex_jty : jty := JStruct (str "outer")
  [(str "id", JScalar B_uint64); (str "list", JVec (JStruct (str "in") [(str "s", JScalar B_string); (str "o", JOpt (JScalar B_int8))]));
   (str "v", JVariant [JScalar B_bool; JVec (JScalar B_name)])].
Definition ex_jval : val := VList [VInt 7; VList [VList [VStr (str "a""b"); VOpt None]; VList [VStr []; VOpt (Some (VInt (-3)))]]; VVar 1 (VList [VInt 6138663577826885632])].
Example C41_hypotheses : jwf (fun _ => JView) 0 ex_jty ex_jval = true /\ two_way ex_jty = true /\ names_distinct ex_jty /\ survives no_floats ex_jty ex_jval /\
  ov no_floats = Wrap.
Proof.
  assert (A : forall s, asciib s = true -> utf8 s) by (intros s Hs; now apply utf8_of_ascii, asciib_spec).
  split; [vm_compute; reflexivity|]. split; [reflexivity|]. split; [|split; [|reflexivity]].
  - cbn [names_distinct ex_jty]. split; [apply NoDup_cons; [|apply NoDup_cons; [|apply NoDup_cons; [|apply NoDup_nil]]]; cbv; intuition discriminate|].
    split; [repeat constructor; apply A; reflexivity|]. cbn [map fold_right snd names_distinct]. split; [exact Logic.I|]. split; [|split; [|exact Logic.I]].
    + split; [apply NoDup_cons; [|apply NoDup_cons; [|apply NoDup_nil]]; cbv; intuition discriminate|]. split; [repeat constructor; apply A; reflexivity|]. repeat split; exact Logic.I.
    + split; [apply NoDup_cons; [|apply NoDup_cons; [|apply NoDup_nil]]; cbv; intuition discriminate|]. split; [repeat constructor; apply A; reflexivity|]. repeat split; exact Logic.I.
  - cbn [survives ex_jty ex_jval map fold_right snd]. repeat split; try exact Logic.I; apply A; reflexivity.
Qed.
Example C41_example :
  convert_to_json no_floats (fun _ => JView) 0 ex_jty ex_jval =
    Ok (str "{""id"":""7"",""list"":[{""s"":""a\""b"",""o"":null},{""s"":"""",""o"":-3}],""v"":[""name[]"",[""eosio""]]}") /\
  from_json no_floats ex_jty (jdefault ex_jty)
    (open_json (str "{""v"":[""name[]"",[""eosio""]],""zz"":[{}],""list"":[{""s"":""a\""b"",""o"":null},{""o"":-3}], ""id"":7}")) = Ok (ex_jval, JS [] None).
Proof. split; vm_compute; reflexivity. Qed.
Example C42_example : format_json no_floats (fun _ => JView) 0 (JVec (JStruct (str "in") [(str "s", JScalar B_string)])) (VList [VList [VStr (str " ")]]) =
  Ok (str "[
    {
        ""s"": "" ""
    }
]").
Proof. vm_compute; reflexivity. Qed.
