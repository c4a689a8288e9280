(** * C43: binary and JSON forms of ABI definitions *)
From Verif Require Import Base Stream StreamFacts TypedBin TypedSpec BinLemmas Name JsonInt JsonIntFacts Prop_JsonInt Prop_Name NameFacts KeysFacts Utf8 Json JsonSpec JsonFacts JsonPrint Prop_Json Abi AbiScalar AbiDoc AbiRead AbiReadBack Prop_AbiJson
  TypedJson TypedJsonSpec TypedJsonRead TypedJsonText Prop_TypedJson Prop_AbiBin AbiDef AbiDefSpec AbiDefFacts AbiDefJson.

(** ** Binary *)
(** Every definition is encoded in the published layout and read back, whatever follows it. *)
Theorem C43_binary_roundtrip d : abi_def_ok d ->
  abi_def_to_bin d = Ok (b_abi d) /\ forall rest, bytes_ok rest -> abi_def_from_bin (b_abi d ++ rest) = Ok (d, rest).
Proof. intros H. split; [now apply abi_enc|]. intros rest Hr. now apply abi_rt. Qed.
Print Assumptions C43_binary_roundtrip.
(** The layout of old encoders, without the list of variants, is read as a definition without variants. *)
Theorem C43_old_layout d : abi_def_ok d -> ad_variants d = [] ->
  b_abi d = b_abi_without_variants d ++ [0] /\ abi_def_from_bin (b_abi_without_variants d) = Ok (d, []).
Proof. intros H V. split; [unfold b_abi; rewrite V; reflexivity|now apply abi_rt_old]. Qed.
Print Assumptions C43_old_layout.
(** Any bytes: a definition which can be encoded and read again, or an exception; never undefined behaviour. *)
Theorem C43_binary_decode s : bytes_ok s -> Z.of_nat (List.length s) < 2 ^ 32 ->
  match abi_def_from_bin s with
  | Ok (d, rest) => (exists used, s = used ++ rest) /\ abi_def_ok d /\ abi_def_to_bin d = Ok (b_abi d) /\ abi_def_from_bin (b_abi d ++ rest) = Ok (d, rest)
  | Err e => In e decode_errors
  | Undef w => False
  end.
Proof.
  intros Hs Hl. pose proof (abi_sound s Hs Hl) as H. destruct (abi_def_from_bin s) as [[d rest]|e|w]; auto. destruct H as [[u ->] W].
  split; [eauto|]. split; [exact W|]. split; [now apply abi_enc|]. apply abi_rt; [exact W|]. now apply bytes_ok_app in Hs.
Qed.
Print Assumptions C43_binary_decode.

(** ** JSON *)
Lemma described_no_extensions j d : json_abi j d -> ad_extensions d = [].
Proof. intros (ms & _ & _ & _ & _ & _ & _ & _ & _ & K & _). unfold has in K. destruct (member _ ms); [now destruct K|exact K]. Qed.
Lemma abi_run E j te : TypedJsonRead.small j -> unique j -> forall d s, abi_def_from_json E (JS (tokens j) te) = Ok (d, s) <-> s = JS [] te /\ json_abi j d.
Proof.
  intros Sm U d s. unfold abi_def_from_json. rewrite <- (app_nil_r (tokens j)). split.
  - intros H. apply bind_Ok in H as ([v s1] & H1 & H). apply run_reads in H1 as [-> R]; [|exact Sm]. apply (jr_abi E j v U) in R as (d' & -> & R).
    rewrite abi_back in H by exact (described_no_extensions j d' R). assert (d' = d) by congruence. assert (s = JS [] te) by congruence. subst. auto.
  - intros [-> R]. assert (T : treads E abi_def_jty (jdefault abi_def_jty) j (val_of_abi d)) by (apply (jr_abi E j _ U); eauto).
    rewrite (proj1 (reads_run E) _ _ _ _ T Sm). cbn [bind]. now rewrite abi_back by exact (described_no_extensions j d R).
Qed.
(** A JSON text of a document without repeated member names: the definition read is exactly the one
    the document describes ([json_abi]), and there is nothing after it; if it describes none, reading fails. *)
Theorem C43_json_exact E text j : bytes_ok text -> short text -> json_text_lax j (cstr text) -> unique j ->
  forall d s, abi_def_from_json E (open_json text) = Ok (d, s) <-> s = JS [] None /\ json_abi j d.
Proof.
  intros Hb Hs J U d s. pose proof (doc_tokens j text J) as T. unfold open_json. rewrite T. apply abi_run; [eapply short_small; eauto|exact U].
Qed.
Print Assumptions C43_json_exact.
(** Any text at all: a definition without extensions, or an exception; never undefined
    behaviour. A text which is not a JSON text is refused. *)
Theorem C43_json_total E text : bytes_ok text -> short text ->
  match abi_def_from_json E (open_json text) with
  | Ok (d, s) => s = JS [] None /\ ad_extensions d = [] /\ exists j, json_text_lax j (cstr text)
  | Err _ => True
  | Undef _ => False
  end.
Proof.
  intros Hb Hs. unfold abi_def_from_json. destruct (from_json E abi_def_jty (jdefault abi_def_jty) (open_json text)) as [[v s]|e|w] eqn:F; cbn [bind]; [|exact Logic.I|].
  - apply C41_reads_exactly in F as (-> & j & J & R); [|exact Hb|exact Hs]. apply (proj1 (treads_shp E)) in R; [|reflexivity|apply shp_default; reflexivity].
    apply sh_abi in R as (d & -> & X). rewrite abi_back by exact X. eauto.
  - rewrite (from_json_indep E no_floats) in F by reflexivity. apply C41_reading_defined in F as [_ F]; [discriminate F|exact Hb|exact Hs|reflexivity|apply shaped_default].
Qed.
Print Assumptions C43_json_total.

(** ** The document of a definition *)
Lemma has_at {A} ms k (dflt : A) (R : jv -> A -> Prop) x j : member (str k) ms = Some j -> R j x -> has ms k dflt R x.
Proof. intros M H. unfold has. now rewrite M. Qed.
Lemma list_doc {A} (f : A -> jv) (R : jv -> A -> Prop) l : Forall (fun x => R (f x) x) l -> json_list R (d_list f l) l.
Proof. intros H. exists (map f l). split; [reflexivity|]. induction H; constructor; auto. Qed.
Lemma all_doc {A} (f : A -> jv) (R : jv -> A -> Prop) l : (forall x, R (f x) x) -> json_list R (d_list f l) l.
Proof. intros H. apply list_doc. apply Forall_forall. auto. Qed.
Ltac members := repeat match goal with |- _ /\ _ => split end; (eapply has_at; [reflexivity|]); try reflexivity.
Lemma doc_name n : uint 64 n -> json_name (d_name n) n.
Proof. intros H. eexists. split; [reflexivity|]. symmetry. exact (C09_json_name_roundtrip n H). Qed.
Lemma document_describes d : abi_def_ok d -> ad_extensions d = [] -> json_abi (abi_document d) d.
Proof.
  intros (_ & _ & _ & [H3 _] & [H4 _] & _ & [H6 _] & _ & _) X. eexists. split; [reflexivity|]. members.
  - apply all_doc. intros x. eexists. split; [reflexivity|]. members.
  - apply all_doc. intros x. eexists. split; [reflexivity|]. members. apply all_doc. intros y. eexists. split; [reflexivity|]. members.
  - apply list_doc. eapply Forall_impl; [|exact H3]. intros x (Hx & _). eexists. split; [reflexivity|]. members. now apply doc_name.
  - apply list_doc. eapply Forall_impl; [|exact H4]. intros x (Hx & _). eexists. split; [reflexivity|]. members; [now apply doc_name| |]; apply all_doc; reflexivity.
  - apply all_doc. intros x. eexists. split; [reflexivity|]. members.
  - apply list_doc. eapply Forall_impl; [|exact H6]. intros x (Hx & _). eexists. split; [reflexivity|]. members.
    exists (int_notation (em_code x)). split; [reflexivity|]. apply C21_roundtrip; [right; right; right; left; reflexivity|]. unfold uint in Hx. unfold tmin, tmax, tbits.
    change (8 * Z.of_nat 8) with 64. lia.
  - now split.
  - apply all_doc. intros x. eexists. split; [reflexivity|]. members. apply all_doc. reflexivity.
Qed.
Lemma unique_list {A} (f : A -> jv) l : (forall x, unique (f x)) -> unique (d_list f l).
Proof. intros H. constructor. apply Forall_forall. intros j Hj. apply in_map_iff in Hj as (x & <- & _). apply H. Qed.
Ltac uniq := constructor; [cbn [map fst]; nodup|repeat (apply Forall_cons; [cbn [snd]; try constructor|]); try apply Forall_nil].
Lemma unique_strs l : unique (d_list d_str l).
Proof. apply unique_list. constructor. Qed.
Lemma document_unique d : unique (abi_document d).
Proof.
  assert (Ut : forall t, unique (d_type t)) by (intros; uniq). assert (Uf : forall t, unique (d_field t)) by (intros; uniq).
  assert (Us : forall t, unique (d_struct t)). { intros. constructor; [cbn [map fst]; nodup|]. constructor; [constructor|]. constructor; [constructor|]. constructor; [now apply unique_list|constructor]. }
  assert (Ua : forall t, unique (d_action t)) by (intros; uniq).
  assert (Ub : forall t, unique (d_table t)).
  { intros. constructor; [cbn [map fst]; nodup|]. constructor; [constructor|]. constructor; [constructor|]. constructor; [apply unique_strs|]. constructor; [apply unique_strs|]. constructor; [constructor|constructor]. }
  assert (Uc : forall t, unique (d_clause t)) by (intros; uniq). assert (Ue : forall t, unique (d_error t)) by (intros; uniq).
  assert (Uv : forall t, unique (d_variant t)). { intros. constructor; [cbn [map fst]; nodup|]. constructor; [constructor|]. constructor; [apply unique_strs|constructor]. }
  constructor; [cbn [map fst]; nodup|]. constructor; [constructor|]. constructor; [now apply unique_list|]. constructor; [now apply unique_list|]. constructor; [now apply unique_list|].
  constructor; [now apply unique_list|]. constructor; [now apply unique_list|]. constructor; [now apply unique_list|]. constructor; [constructor; constructor|]. constructor; [now apply unique_list|constructor].
Qed.
(** If the strings of the definition are UTF-8, its document has a JSON text. *)
Lemma writable_list {A} (P : A -> Prop) (f : A -> jv) l : small_list P l -> (forall x, P x -> writable (f x)) -> writable (d_list f l).
Proof. intros [F _] H. constructor. apply Forall_forall. intros j Hj. apply in_map_iff in Hj as (x & <- & Hx). rewrite Forall_forall in F. auto. Qed.
Lemma writable_strs l : small_list small_text l -> writable (d_list d_str l).
Proof. intros H. eapply writable_list; [exact H|]. intros x [Hx _]. now constructor. Qed.
Lemma writable_text s : small_text s -> writable (JStr s).
Proof. intros [H _]. now constructor. Qed.
Lemma writable_name n : uint 64 n -> writable (d_name n).
Proof. intros H. constructor. now apply name_to_string_ok. Qed.
Ltac wobj := constructor; repeat (apply Forall_cons; [split; [apply bytes_okb_spec; reflexivity|cbn [snd]; try (apply writable_text; assumption); try (apply writable_name; assumption); try (apply writable_strs; assumption)]|]); try apply Forall_nil.
Lemma document_writable d : abi_def_ok d -> writable (abi_document d).
Proof.
  intros (H0 & H1 & H2 & H3 & H4 & H5 & H6 & _ & H8). wobj.
  - eapply writable_list; [exact H1|]. intros x (? & ?). wobj.
  - eapply writable_list; [exact H2|]. intros x (? & ? & F). wobj. eapply writable_list; [exact F|]. intros y (? & ?). wobj.
  - eapply writable_list; [exact H3|]. intros x (? & ? & ?). wobj.
  - eapply writable_list; [exact H4|]. intros x (? & ? & ? & ? & ?). wobj.
  - eapply writable_list; [exact H5|]. intros x (? & ?). wobj.
  - eapply writable_list; [exact H6|]. intros x (? & ?). wobj. constructor. apply int_number.
  - constructor. constructor.
  - eapply writable_list; [exact H8|]. intros x (? & ?). wobj.
Qed.
(** Every JSON text of the usual document of a definition, in any layout, is read as that definition:
    the JSON form and the binary form of a definition mean the same. *)
Theorem C43_json_and_binary_agree E d text : abi_def_ok d -> ad_extensions d = [] ->
  bytes_ok text -> short text -> json_text (abi_document d) text ->
  abi_def_from_json E (open_json text) = Ok (d, JS [] None) /\
  exists bin, abi_def_to_bin d = Ok bin /\ abi_def_from_bin bin = Ok (d, []).
Proof.
  intros H X Hb Hs J. split.
  - apply C44_reads_every_document in J. unfold open_json. rewrite J. apply abi_run; [eapply short_small; eauto|apply document_unique|]. split; [reflexivity|]. now apply document_describes.
  - exists (b_abi d). split; [now apply abi_enc|]. rewrite <- (app_nil_r (b_abi d)). apply abi_rt; [exact H|constructor].
Qed.
Print Assumptions C43_json_and_binary_agree.
Theorem C43_has_json_text d : abi_def_ok d -> utf8_doc (abi_document d) -> exists text, bytes_ok text /\ json_text (abi_document d) text.
Proof.
  intros H U. exists (print (abi_document d)). pose proof (document_writable d H) as W. split; [now apply print_bytes|now apply print_text_utf8].
Qed.
Print Assumptions C43_has_json_text.
(** A definition with extensions has a binary form, which is read, but no JSON text is ever read as it. *)
Theorem C43_extensions_not_in_json_refuted d : abi_def_ok d -> ad_extensions d <> [] ->
  abi_def_from_bin (b_abi d) = Ok (d, []) /\ forall E text s, bytes_ok text -> short text -> abi_def_from_json E (open_json text) <> Ok (d, s).
Proof.
  intros H X. split; [rewrite <- (app_nil_r (b_abi d)); apply abi_rt; [exact H|constructor]|]. intros E text s Hb Hs F.
  pose proof (C43_json_total E text Hb Hs) as T. rewrite F in T. now destruct T as (_ & T & _).
Qed.
Print Assumptions C43_extensions_not_in_json_refuted.

(** ** Examples *)
Definition ex_def : abi_def := AbiDef (str "eosio::abi/1.1") [TypeDef (str "acct") (str "name")]
  [StructDef (str "xfer") [] [FieldDef (str "to") (str "acct"); FieldDef (str "v") (str "v?")]]
  [ActionDef 6138663577826885632 (str "xfer") (str "text")] [TableDef 5 (str "i64") [str "k"] [str "uint64"] (str "xfer")]
  [ClausePair (str "c") (str "d")] [ErrorMessage (2 ^ 64 - 1) (str "e")] [] [VariantDef (str "v") [str "int8"; str "acct"]].
Lemma ex_small s : bytes_okb s = true -> Z.of_nat (List.length s) < 2 ^ 32 -> small_text s.
Proof. intros H L. split; [now apply bytes_okb_spec|exact L]. Qed.
Ltac texts := repeat match goal with
  | |- abi_def_ok _ => unfold abi_def_ok
  | |- type_def_ok _ => split
  | |- field_def_ok _ => split
  | |- struct_def_ok _ => unfold struct_def_ok
  | |- action_def_ok _ => unfold action_def_ok
  | |- table_def_ok _ => unfold table_def_ok
  | |- clause_ok _ => split
  | |- error_message_ok _ => split
  | |- variant_def_ok _ => split
  | |- _ /\ _ => split
  | |- small_list _ _ => split; [cbv [ex_def ad_version ad_types ad_structs ad_actions ad_tables ad_clauses ad_errors ad_extensions ad_variants sd_fields tb_key_names tb_key_types vd_types]|vm_compute; reflexivity]
  | |- Forall _ _ => constructor
  | |- small_text _ => apply ex_small; vm_compute; reflexivity
  | |- uint _ _ => split; vm_compute; [discriminate|reflexivity]
  end.
Example C43_def_ok : abi_def_ok ex_def /\ ad_extensions ex_def = [].
Proof. split; [|reflexivity]. texts. Qed.
Definition ex_def_text : bytes := Eval vm_compute in print (abi_document ex_def).
Example C43_agree_hypotheses : bytes_ok ex_def_text /\ short ex_def_text /\ json_text (abi_document ex_def) ex_def_text.
Proof.
  split; [apply bytes_okb_spec; vm_compute; reflexivity|]. split; [unfold short; vm_compute; reflexivity|].
  change ex_def_text with (print (abi_document ex_def)). apply print_text_utf8; [apply document_writable, C43_def_ok|].
  assert (A : forall s, asciib s = true -> utf8 s) by (intros s Hs; now apply utf8_of_ascii, asciib_spec).
  repeat (constructor || (apply A; vm_compute; reflexivity)).
Qed.
Example C43_example : 
  abi_def_from_json no_floats (open_json (str "{""structs"":[{""fields"":[{""type"":""acct"",""name"":""to""}],""x"":[1],""name"":""xfer""}],""version"":1}")) =
    Ok (AbiDef (str "1") [] [StructDef (str "xfer") [] [FieldDef (str "to") (str "acct")]] [] [] [] [] [] [], JS [] None).
Proof. vm_compute. reflexivity. Qed.
