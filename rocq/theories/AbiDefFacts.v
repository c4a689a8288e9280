(** * Facts behind C43: the binary form (proofs only) *)
From Verif Require Import Base Stream StreamFacts TypedBin TypedSpec TypedBinFacts TypedBinSound BinLemmas Json Abi AbiScalar TypedJson AbiDef AbiDefSpec.

Record codec {A} (t : ty) (inj : A -> val) (ok : A -> Prop) (b : A -> bytes) (back : val -> option A) : Prop := {
  cd_wf : forall v, wf no_env 0 t v = true <-> exists x, v = inj x /\ ok x;
  cd_enc : forall x, ok x -> enc no_env 0 t (inj x) = Ok (b x);
  cd_back : forall x, ok x -> back (inj x) = Some x
}.
Lemma envu_ok z : 0 <= z < 2 ^ 32 -> envu z = Ok (encv z).
Proof. intros H. unfold envu. now replace ((0 <=? z) && (z <? 2 ^ 32)) with true by lia. Qed.
Lemma len_ok_iff {A} (l : list A) : len_ok l = true <-> Z.of_nat (List.length l) < 2 ^ 32.
Proof. unfold len_ok. apply Z.ltb_lt. Qed.
Lemma codec_str : codec TString VStr small_text b_str str_of.
Proof.
  split.
  - intros v. split.
    + destruct v; try discriminate. cbn [wf wf_with]. intros H. apply andb_true_iff in H as [H1 H2]. apply bytes_okb_spec in H1. apply len_ok_iff in H2. exists s. split; [reflexivity|split; assumption].
    + intros (x & -> & H1 & H2). cbn [wf wf_with]. apply bytes_okb_spec in H1. apply len_ok_iff in H2. now rewrite H1, H2.
  - intros x [H1 H2]. cbn [enc enc_with]. rewrite envu_ok by lia. reflexivity.
  - reflexivity.
Qed.
Definition int_of (v : val) : option Z := match v with VInt z => Some z | _ => None end.
Lemma codec_uint n bits : bits = 8 * Z.of_nat n -> (0 < n <= 16)%nat -> codec (TInt false n) VInt (uint bits) (le_bytes n) int_of.
Proof.
  intros -> Hn. split.
  - intros v. split.
    + destruct v; try discriminate. cbn [wf wf_with]. unfold int_ok, fits_u. intros H. exists z. split; [reflexivity|]. unfold uint. lia.
    + intros (x & -> & H). unfold uint in H. cbn [wf wf_with]. unfold int_ok, fits_u. lia.
  - reflexivity.
  - reflexivity.
Qed.
Lemma forallb_inj {A} (f : val -> bool) (inj : A -> val) (ok : A -> Prop) :
  (forall v, f v = true <-> exists x, v = inj x /\ ok x) -> forall l, forallb f l = true <-> exists xs, l = map inj xs /\ Forall ok xs.
Proof.
  intros H. induction l as [|v l IH]; cbn [forallb].
  - split; [intros _; exists []; split; [reflexivity|constructor]|reflexivity].
  - rewrite andb_true_iff, H, IH. split.
    + intros [(x & -> & O) (xs & -> & F)]. exists (x :: xs). split; [reflexivity|now constructor].
    + intros ([|x xs] & Q & F); [discriminate|]. cbn [map] in Q. apply Forall_cons_iff in F as [F1 F2].
      assert (v = inj x) by congruence. assert (l = map inj xs) by congruence. split; eauto.
Qed.
Lemma oall_map {A B} (f : A -> val) (g : val -> option B) (h : A -> B) l : Forall (fun x => g (f x) = Some (h x)) l -> oall g (map f l) = Some (map h l).
Proof. induction 1 as [|x l H _ IH]; [reflexivity|]. cbn [map oall]. now rewrite H, IH. Qed.
Lemma codec_vec {A} t (inj : A -> val) ok b back : codec t inj ok b back -> bitwise_size t = None ->
  codec (TVec t) (fun l => VList (map inj l)) (small_list ok) (b_list b) (list_of back).
Proof.
  intros [W En Ba] Nb. split.
  - intros v. split.
    + destruct v; try discriminate. cbn [wf wf_with]. intros H. apply andb_true_iff in H as [H1 H2]. apply len_ok_iff in H1.
      apply (proj1 (forallb_inj _ inj ok W l)) in H2 as (xs & -> & F). rewrite map_length in H1. exists xs. split; [reflexivity|now split].
    + intros (xs & -> & F & L). cbn [wf wf_with]. apply andb_true_iff. split; [apply len_ok_iff; now rewrite map_length|].
      apply (proj2 (forallb_inj _ inj ok W _)). eauto.
  - intros xs [F L]. cbn [enc enc_with]. rewrite Nb, map_length, envu_ok by lia.
    assert (Q : enc_seq (enc_with (fun _ _ => Undef "stack") t) (map inj xs) = Ok (concat (map b xs))).
    { clear L. induction F as [|x xs H _ IH]; [reflexivity|]. cbn [map enc_seq concat]. rewrite (En x H : enc_with _ t (inj x) = _). rewrite IH. reflexivity. }
    rewrite Q. reflexivity.
  - intros xs [F L]. cbn [list_of]. rewrite (oall_map inj back (fun x => x)), map_id; [reflexivity|]. eapply Forall_impl; [|exact F]. exact Ba.
Qed.
(** vector<char> *)
Definition chars (s : bytes) : val := VList (map (fun b => VInt (to_signed 8 b)) s).
Lemma codec_chars : codec (TVec (TInt true 1)) chars small_text b_str (list_of char_of).
Proof.
  assert (B1 : forall z, int_ok true 1 z = true <-> - 2 ^ 7 <= z < 2 ^ 7).
  { intros z. unfold int_ok, fits_s. change (8 * Z.of_nat 1) with 8. change (8 - 1) with 7. cbn. lia. }
  split.
  - intros v. split.
    + destruct v; try discriminate. cbn [wf wf_with]. intros H. apply andb_true_iff in H as [H1 H2]. apply len_ok_iff in H1.
      assert (K : exists s, l = map (fun b => VInt (to_signed 8 b)) s /\ bytes_ok s).
      { clear H1. induction l as [|v l IH]; [exists []; split; [reflexivity|constructor]|]. cbn [forallb] in H2. apply andb_true_iff in H2 as [H2 H3].
        destruct (IH H3) as (s & -> & Hs). destruct v as [z| | | | | |]; try discriminate. cbn [wf_with] in H2. apply B1 in H2.
        exists (to_unsigned 8 z :: s). split.
        - cbn [map]. rewrite to_signed_unsigned; [reflexivity|lia|lia].
        - constructor; [|exact Hs]. pose proof (to_unsigned_range 8 z ltac:(lia)). unfold is_byte. lia. }
      destruct K as (s & -> & Hs). rewrite map_length in H1. exists s. split; [reflexivity|now split].
    + intros (s & -> & Hs & L). unfold chars. cbn [wf wf_with]. apply andb_true_iff. split; [apply len_ok_iff; now rewrite map_length|].
      apply forallb_forall. intros v Hv. apply in_map_iff in Hv as (b & <- & Hb). unfold bytes_ok in Hs. rewrite Forall_forall in Hs. apply Hs in Hb. apply B1.
      apply (to_signed_range 8); [lia|]. unfold is_byte in Hb. lia.
  - intros s [Hs L]. unfold chars. cbn [enc enc_with bitwise_size]. rewrite map_length, envu_ok by lia.
    assert (Q : raws (TInt true 1) (map (fun b => VInt (to_signed 8 b)) s) = Ok s).
    { clear L. induction Hs as [|b s H _ IH]; [reflexivity|]. cbn [map raws raw_bytes bind]. rewrite IH. cbn [bind]. f_equal. change (b :: s) with ([b] ++ s). f_equal.
      rewrite le_bytes_mod. change (256 ^ Z.of_nat 1) with (2 ^ 8). change (to_signed 8 b mod 2 ^ 8) with (to_unsigned 8 (to_signed 8 b)).
      unfold is_byte in H. rewrite to_unsigned_signed by lia. cbn [le_bytes]. f_equal. apply Z.mod_small. lia. }
    rewrite Q. reflexivity.
  - intros s [Hs L]. unfold chars. cbn [list_of]. rewrite (oall_map (fun b => VInt (to_signed 8 b)) char_of (fun x => x)), map_id; [reflexivity|].
    eapply Forall_impl; [|exact Hs]. intros b H. unfold is_byte in H. cbn [char_of]. now rewrite to_unsigned_signed by lia.
Qed.

(** Structs: one component after the other, as nested pairs. *)
Record tcodec {A} (ts : list ty) (inj : A -> list val) (ok : A -> Prop) (b : A -> bytes) : Prop := {
  tc_wf : forall l, forallb2 (map (wf no_env 0) ts) l = true <-> exists x, l = inj x /\ ok x;
  tc_enc : forall x, ok x -> enc_tuple (map (enc no_env 0) ts) (inj x) = Ok (b x)
}.
Lemma tc_nil : tcodec [] (fun _ : unit => []) (fun _ => True) (fun _ => []).
Proof.
  split; [|reflexivity]. intros l. cbn [map]. destruct l; cbn [forallb2]; split; try discriminate.
  - intros _. exists tt. auto.
  - reflexivity.
  - intros (x & H & _). discriminate.
Qed.
Lemma tc_cons {A B} t ts (inj : A -> val) ok b back (injs : B -> list val) oks bs : codec t inj ok b back -> tcodec ts injs oks bs ->
  tcodec (t :: ts) (fun p => inj (fst p) :: injs (snd p)) (fun p => ok (fst p) /\ oks (snd p)) (fun p => b (fst p) ++ bs (snd p)).
Proof.
  intros [W En Ba] [Ws Es]. split.
  - intros l. cbn [map]. destruct l as [|v l]; cbn [forallb2]; [split; [discriminate|intros (x & H & _); discriminate]|].
    rewrite andb_true_iff, W, Ws. split.
    + intros [(x & -> & O) (y & -> & P)]. exists (x, y). auto.
    + intros ([x y] & Q & O & P). cbn [fst snd] in *. assert (v = inj x) by congruence. assert (l = injs y) by congruence. split; eauto.
  - intros [x y] [O P]. cbn [fst snd map enc_tuple] in *. rewrite (En x O), (Es y P). reflexivity.
Qed.
Definition is_tuple (t : ty) (ts : list ty) : Prop := t = TTuple ts \/ exists k, t = TWrap k (TTuple ts).
Lemma codec_struct {A X} t ts (injs : A -> list val) oks bs (f : X -> A) (g : A -> X) inj' ok' b' back' :
  tcodec ts injs oks bs -> is_tuple t ts -> (forall a, f (g a) = a) -> (forall x, inj' x = VList (injs (f x))) -> (forall x, ok' x <-> oks (f x)) ->
  (forall x, b' x = bs (f x)) -> (forall x, ok' x -> back' (inj' x) = Some x) -> (forall x, g (f x) = x) -> codec t inj' ok' b' back'.
Proof.
  intros [W En] T FG I O B Ba GF.
  assert (W1 : forall v, wf no_env 0 t v = true <-> exists l, v = VList l /\ forallb2 (map (wf no_env 0) ts) l = true).
  { intros v. destruct T as [->|[k ->]]; destruct v as [| | | |l| |]; (split; [try discriminate|intros (l' & Q & H); try discriminate]).
    1, 3: intros H; exists l; split; [reflexivity|exact H].
    all: assert (l' = l) by congruence; subst l'; exact H. }
  assert (E1 : forall l, enc no_env 0 t (VList l) = enc_tuple (map (enc no_env 0) ts) l) by (intros l; destruct T as [->|[k ->]]; reflexivity).
  split.
  - intros v. rewrite W1. split.
    + intros (l & -> & H). apply W in H as (a & -> & H). exists (g a). rewrite I, FG. split; [reflexivity|]. apply O. now rewrite FG.
    + intros (x & -> & H). rewrite I. eexists. split; [reflexivity|]. apply W. exists (f x). split; [reflexivity|]. now apply O.
  - intros x H. rewrite I, E1, B. apply En. now apply O.
  - exact Ba.
Qed.
Ltac is_struct := right; eexists; reflexivity.

Lemma codec_type : codec (erase type_def_jty) val_of_type type_def_ok b_type type_of.
Proof.
  eapply (codec_struct _ _ _ _ _ (fun t => (new_type_name t, (td_type t, tt))) (fun p => TypeDef (fst p) (fst (snd p))));
    [eapply (tc_cons _ _ _ _ _ _ _ _ _ codec_str); eapply (tc_cons _ _ _ _ _ _ _ _ _ codec_str); apply tc_nil|is_struct|now intros (a & b & [])|reflexivity| | |intros []; reflexivity|now intros []].
  - intros x. unfold type_def_ok. cbn [fst snd]. tauto.
  - intros x. unfold b_type. cbn [fst snd]. now rewrite app_nil_r.
Qed.
Lemma codec_field : codec (erase field_def_jty) val_of_field field_def_ok b_field field_of.
Proof.
  eapply (codec_struct _ _ _ _ _ (fun t => (fd_name t, (fd_type t, tt))) (fun p => FieldDef (fst p) (fst (snd p))));
    [eapply (tc_cons _ _ _ _ _ _ _ _ _ codec_str); eapply (tc_cons _ _ _ _ _ _ _ _ _ codec_str); apply tc_nil|is_struct|now intros (a & b & [])|reflexivity| | |intros []; reflexivity|now intros []].
  - intros x. unfold field_def_ok. cbn [fst snd]. tauto.
  - intros x. unfold b_field. cbn [fst snd]. now rewrite app_nil_r.
Qed.
Lemma codec_struct_def : codec (erase struct_def_jty) val_of_struct struct_def_ok b_struct struct_of.
Proof.
  pose proof (codec_vec _ _ _ _ _ codec_field eq_refl) as CF.
  eapply (codec_struct _ _ _ _ _ (fun t => (sd_name t, (sd_base t, (sd_fields t, tt)))) (fun p => StructDef (fst p) (fst (snd p)) (fst (snd (snd p)))));
    [eapply (tc_cons _ _ _ _ _ _ _ _ _ codec_str); eapply (tc_cons _ _ _ _ _ _ _ _ _ codec_str); eapply (tc_cons _ _ _ _ _ _ _ _ _ CF); apply tc_nil
    |is_struct|now intros (a & b & c & [])|reflexivity| | | |now intros []].
  - intros x. unfold struct_def_ok. cbn [fst snd]. tauto.
  - intros x. unfold b_struct. cbn [fst snd]. now rewrite app_nil_r.
  - intros [a b fs] (_ & _ & F). cbn [sd_fields] in F. unfold val_of_struct. cbn [sd_name sd_base sd_fields struct_of]. now rewrite (cd_back _ _ _ _ _ CF fs F).
Qed.
Lemma codec_wrap {A} k t (val_of : A -> val) ok b (of : val -> option A) : codec t val_of ok b of -> codec (TWrap k t) val_of ok b of.
Proof. intros [W En Ba]. split; [exact W|exact En|exact Ba]. Qed.
Lemma codec_u64 : codec (TInt false 8) VInt (uint 64) (le_bytes 8) int_of.
Proof. apply codec_uint; [reflexivity|lia]. Qed.
Lemma codec_name : codec (scalar_ty B_name) VInt (uint 64) (le_bytes 8) int_of.
Proof. apply codec_wrap, codec_uint; [reflexivity|lia]. Qed.
Lemma codec_action : codec (erase action_def_jty) val_of_action action_def_ok b_action action_of.
Proof.
  eapply (codec_struct _ _ _ _ _ (fun t => (ac_name t, (ac_type t, (ac_ricardian t, tt)))) (fun p => ActionDef (fst p) (fst (snd p)) (fst (snd (snd p)))));
    [eapply (tc_cons _ _ _ _ _ _ _ _ _ codec_name); eapply (tc_cons _ _ _ _ _ _ _ _ _ codec_str); eapply (tc_cons _ _ _ _ _ _ _ _ _ codec_str); apply tc_nil
    |is_struct|now intros (a & b & c & [])|reflexivity| | |intros []; reflexivity|now intros []].
  - intros x. unfold action_def_ok. cbn [fst snd]. tauto.
  - intros x. unfold b_action. cbn [fst snd]. now rewrite app_nil_r.
Qed.
Lemma codec_strs : codec (TVec TString) strs (small_list small_text) (b_list b_str) (list_of str_of).
Proof. exact (codec_vec _ _ _ _ _ codec_str eq_refl). Qed.
Lemma codec_table : codec (erase table_def_jty) val_of_table table_def_ok b_table table_of.
Proof.
  eapply (codec_struct _ _ _ _ _ (fun t => (tb_name t, (tb_index_type t, (tb_key_names t, (tb_key_types t, (tb_type t, tt))))))
     (fun p => TableDef (fst p) (fst (snd p)) (fst (snd (snd p))) (fst (snd (snd (snd p)))) (fst (snd (snd (snd (snd p)))))));
    [eapply (tc_cons _ _ _ _ _ _ _ _ _ codec_name); eapply (tc_cons _ _ _ _ _ _ _ _ _ codec_str); eapply (tc_cons _ _ _ _ _ _ _ _ _ codec_strs);
     eapply (tc_cons _ _ _ _ _ _ _ _ _ codec_strs); eapply (tc_cons _ _ _ _ _ _ _ _ _ codec_str); apply tc_nil
    |is_struct|now intros (a & b & c & d & e & [])|reflexivity| | | |now intros []].
  - intros x. unfold table_def_ok. cbn [fst snd]. tauto.
  - intros x. unfold b_table. cbn [fst snd]. now rewrite app_nil_r.
  - intros [a b l m c] (_ & _ & L & M & _). cbn [tb_key_names tb_key_types] in *. unfold val_of_table.
    cbn [tb_name tb_index_type tb_key_names tb_key_types tb_type table_of]. now rewrite (cd_back _ _ _ _ _ codec_strs l L), (cd_back _ _ _ _ _ codec_strs m M).
Qed.
Lemma codec_clause : codec (erase clause_pair_jty) val_of_clause clause_ok b_clause clause_of.
Proof.
  eapply (codec_struct _ _ _ _ _ (fun t => (cl_id t, (cl_body t, tt))) (fun p => ClausePair (fst p) (fst (snd p))));
    [eapply (tc_cons _ _ _ _ _ _ _ _ _ codec_str); eapply (tc_cons _ _ _ _ _ _ _ _ _ codec_str); apply tc_nil|is_struct|now intros (a & b & [])|reflexivity| | |intros []; reflexivity|now intros []].
  - intros x. unfold clause_ok. cbn [fst snd]. tauto.
  - intros x. unfold b_clause. cbn [fst snd]. now rewrite app_nil_r.
Qed.
Lemma codec_error : codec (erase error_message_jty) val_of_error error_message_ok b_error error_of.
Proof.
  eapply (codec_struct _ _ _ _ _ (fun t => (em_code t, (em_msg t, tt))) (fun p => ErrorMessage (fst p) (fst (snd p))));
    [eapply (tc_cons _ _ _ _ _ _ _ _ _ codec_u64); eapply (tc_cons _ _ _ _ _ _ _ _ _ codec_str); apply tc_nil|is_struct|now intros (a & b & [])|reflexivity| | |intros []; reflexivity|now intros []].
  - intros x. unfold error_message_ok. cbn [fst snd]. tauto.
  - intros x. unfold b_error. cbn [fst snd]. now rewrite app_nil_r.
Qed.
Lemma codec_variant : codec (erase variant_def_jty) val_of_variant variant_def_ok b_variant variant_of.
Proof.
  eapply (codec_struct _ _ _ _ _ (fun t => (vd_name t, (vd_types t, tt))) (fun p => VariantDef (fst p) (fst (snd p))));
    [eapply (tc_cons _ _ _ _ _ _ _ _ _ codec_str); eapply (tc_cons _ _ _ _ _ _ _ _ _ codec_strs); apply tc_nil|is_struct|now intros (a & b & [])|reflexivity| | | |now intros []].
  - intros x. unfold variant_def_ok. cbn [fst snd]. tauto.
  - intros x. unfold b_variant. cbn [fst snd]. now rewrite app_nil_r.
  - intros [a l] (_ & L). cbn [vd_types] in L. unfold val_of_variant. cbn [vd_name vd_types variant_of]. now rewrite (cd_back _ _ _ _ _ codec_strs l L).
Qed.
Lemma codec_u16 : codec (TInt false 2) VInt (uint 16) (le_bytes 2) int_of.
Proof. apply codec_uint; [reflexivity|lia]. Qed.
Lemma codec_extension : codec (TTuple [TInt false 2; TVec (TInt true 1)]) val_of_extension extension_ok b_extension extension_of.
Proof.
  eapply (codec_struct _ _ _ _ _ (fun t : Z * bytes => (fst t, (snd t, tt))) (fun p => (fst p, fst (snd p))));
    [eapply (tc_cons _ _ _ _ _ _ _ _ _ codec_u16); eapply (tc_cons _ _ _ _ _ _ _ _ _ codec_chars); apply tc_nil|left; reflexivity|now intros (a & b & [])|reflexivity| | | |now intros []].
  - intros x. unfold extension_ok. cbn [fst snd]. tauto.
  - intros x. unfold b_extension. cbn [fst snd]. now rewrite app_nil_r.
  - intros [a l] (_ & L). cbn [snd] in L. unfold val_of_extension. cbn [fst snd extension_of]. fold (chars l). now rewrite (cd_back _ _ _ _ _ codec_chars l L).
Qed.
(** might_not_exist *)
Lemma codec_maybe {A} t (inj : A -> val) ok b back : codec t inj ok b back -> maybe_ok t = true -> codec (TMaybe t) inj ok b back.
Proof.
  intros [W En Ba] M. split; [|intros x H; rewrite <- (En x H); destruct (inj x); reflexivity|exact Ba]. intros v. rewrite <- W.
  assert (Q : wf no_env 0 (TMaybe t) v = maybe_ok t && wf no_env 0 t v) by (destruct v; reflexivity).
  rewrite Q, M. reflexivity.
Qed.
Definition abi_tuple (d : abi_def) := (ad_version d, (ad_types d, (ad_structs d, (ad_actions d, (ad_tables d, (ad_clauses d, (ad_errors d, (ad_extensions d, (ad_variants d, tt))))))))).
Lemma codec_abi : codec (erase abi_def_jty) val_of_abi abi_def_ok b_abi abi_of_val.
Proof.
  pose proof (codec_vec _ _ _ _ _ codec_type eq_refl) as C1. pose proof (codec_vec _ _ _ _ _ codec_struct_def eq_refl) as C2.
  pose proof (codec_vec _ _ _ _ _ codec_action eq_refl) as C3. pose proof (codec_vec _ _ _ _ _ codec_table eq_refl) as C4.
  pose proof (codec_vec _ _ _ _ _ codec_clause eq_refl) as C5. pose proof (codec_vec _ _ _ _ _ codec_error eq_refl) as C6.
  pose proof (codec_vec _ _ _ _ _ codec_extension eq_refl) as C7. pose proof (codec_maybe _ _ _ _ _ (codec_vec _ _ _ _ _ codec_variant eq_refl) eq_refl) as C8.
  eapply (codec_struct _ _ _ _ _ abi_tuple
     (fun '(a, (b, (c, (d, (e, (f, (g, (h, (i, _))))))))) => AbiDef a b c d e f g h i));
    [eapply (tc_cons _ _ _ _ _ _ _ _ _ codec_str); eapply (tc_cons _ _ _ _ _ _ _ _ _ C1); eapply (tc_cons _ _ _ _ _ _ _ _ _ C2);
     eapply (tc_cons _ _ _ _ _ _ _ _ _ C3); eapply (tc_cons _ _ _ _ _ _ _ _ _ C4); eapply (tc_cons _ _ _ _ _ _ _ _ _ C5); eapply (tc_cons _ _ _ _ _ _ _ _ _ C6);
     eapply (tc_cons _ _ _ _ _ _ _ _ _ C7); eapply (tc_cons _ _ _ _ _ _ _ _ _ C8); apply tc_nil
    |is_struct|now intros (a & b & c & d & e & f & g & h & i & [])|reflexivity| | | |now intros []].
  - intros x. unfold abi_def_ok, abi_tuple. cbn [fst snd]. tauto.
  - intros x. unfold b_abi, b_abi_without_variants, abi_tuple. cbn [fst snd]. rewrite app_nil_r. now rewrite <- !app_assoc.
  - intros [a b c d e f g h i] (H0 & H1 & H2 & H3 & H4 & H5 & H6 & H7 & H8). cbn [ad_version ad_types ad_structs ad_actions ad_tables ad_clauses ad_errors ad_extensions ad_variants] in *.
    unfold val_of_abi. cbn [ad_version ad_types ad_structs ad_actions ad_tables ad_clauses ad_errors ad_extensions ad_variants abi_of_val].
    now rewrite (cd_back _ _ _ _ _ C1 b H1), (cd_back _ _ _ _ _ C2 c H2), (cd_back _ _ _ _ _ C3 d H3), (cd_back _ _ _ _ _ C4 e H4), (cd_back _ _ _ _ _ C5 f H5),
      (cd_back _ _ _ _ _ C6 g H6), (cd_back _ _ _ _ _ C7 h H7), (cd_back _ _ _ _ _ C8 i H8).
Qed.

(** ** Reading: never undefined behaviour *)
Fixpoint calm (t : ty) : bool :=
  match t with
  | TInt _ _ | TString => true
  | TVec t | TWrap _ t => calm t
  | TTuple ts => forallb calm ts
  | TMaybe t => maybe_ok t && calm t
  | _ => false
  end.
Definition defined {A} (r : res A) : Prop := forall w, r <> Undef w.
Lemma d_bind {A B} (r : res A) (f : A -> res B) : defined r -> (forall a, r = Ok a -> defined (f a)) -> defined (bind r f).
Proof. intros H K. destruct r as [a|e|w]; cbn [bind]; [now apply K|intros w'; discriminate|now destruct (H w)]. Qed.
Lemma d_ok {A} (a : A) : defined (Ok a). Proof. intros w; discriminate. Qed.
Lemma d_check b e : defined (check b e).
Proof. unfold check. destruct b; intros w; discriminate. Qed.
Lemma d_sread s n : defined (sread s n).
Proof. unfold sread. apply d_bind; [apply d_check|]. intros; apply d_ok. Qed.
Lemma d_vu n : forall fuel bits k dest s, (n < fuel)%nat -> defined (varuint_from_bin_loop fuel bits (k + 7 * Z.of_nat n) dest k s).
Proof.
  induction n as [|n IH]; intros [|fuel] bits k dest s Hf; try lia; cbn [varuint_from_bin_loop].
  - replace (k <? k + 7 * Z.of_nat 0) with false by lia. intros w. discriminate.
  - apply d_bind; [apply d_check|]. intros _ _. apply d_bind; [destruct s; intros w; discriminate|]. intros [b s'] _. cbv zeta.
    destruct (negb _); [|apply d_ok]. replace (k + 7 * Z.of_nat (S n)) with ((k + 7) + 7 * Z.of_nat n) by lia. apply IH. lia.
Qed.
Lemma d_vu32 s : defined (varuint32_from_bin s).
Proof. exact (d_vu 5 12 32 0 0 s ltac:(lia)). Qed.
Lemma d_vu64 s : defined (varuint64_from_bin s).
Proof. exact (d_vu 10 12 64 0 0 s ltac:(lia)). Qed.
Lemma def_list f n : (forall s, defined (f s)) -> forall s, defined (read_list f n s).
Proof.
  intros H. induction n as [|n IH]; intros s; cbn [read_list]; [apply d_ok|]. apply d_bind; [apply H|]. intros [x s1] _. apply d_bind; [apply IH|]. intros [l s2] _. apply d_ok.
Qed.
Lemma d_tuple fs : Forall (fun f : istream -> res (val * istream) => forall s, defined (f s)) fs -> forall s, defined (read_tuple fs s).
Proof.
  induction 1 as [|f fs H _ IH]; intros s; cbn [read_tuple]; [apply d_ok|]. apply d_bind; [apply H|]. intros [x s1] _. apply d_bind; [apply IH|]. intros [l s2] _. apply d_ok.
Qed.
Lemma calm_defined ref : forall t s, calm t = true -> defined (from_bin_with ref t s).
Proof.
  induction t using ty_ind'; intros s0 C; try discriminate C; cbn [from_bin_with calm] in *.
  - apply d_bind; [apply d_sread|]. intros [b s1] _. apply d_ok.
  - apply d_bind; [apply d_vu32|]. intros [n s1] _. apply d_bind; [apply d_sread|]. intros [b s2] _. apply d_ok.
  - destruct (bitwise_size t) as [w|].
    + apply d_bind; [apply d_vu64|]. intros [n s1] _. cbv zeta. apply d_bind; [apply d_check|]. intros _ _. apply d_bind; [apply d_check|]. intros _ _.
      apply d_bind; [apply d_sread|]. intros [b s2] _. apply d_ok.
    + apply d_bind; [apply d_vu32|]. intros [n s1] _. apply d_bind; [apply def_list; intros; now apply IHt|]. intros [l s2] _. apply d_ok.
  - apply d_bind; [|intros [l s2] _; apply d_ok]. apply d_tuple. rewrite forallb_forall in C. rewrite Forall_forall in *. intros f Hf.
    apply in_map_iff in Hf as (t & <- & Ht). intros s1. apply H; auto.
  - apply andb_true_iff in C as [C1 C2]. destruct s0; [destruct t; try discriminate C1; intros w; discriminate|]. now apply IHt.
  - now apply IHt.
Qed.

(** ** Reading definitions *)
Lemma read_tuple_app fs gs s : read_tuple (fs ++ gs) s = let* (l, s) := read_tuple fs s in let* (m, s) := read_tuple gs s in Ok (l ++ m, s).
Proof.
  revert s. induction fs as [|f fs IH]; intros s; cbn [read_tuple app].
  - cbn [bind]. destruct (read_tuple gs s) as [[m s1]|e|w]; reflexivity.
  - destruct (f s) as [[x s1]|e|w]; cbn [bind]; [|reflexivity|reflexivity]. rewrite IH. destruct (read_tuple fs s1) as [[l s2]|e|w]; cbn [bind]; [|reflexivity|reflexivity].
    destruct (read_tuple gs s2) as [[m s3]|e|w]; reflexivity.
Qed.
Lemma abi_enc d : abi_def_ok d -> abi_def_to_bin d = Ok (b_abi d).
Proof. intros H. unfold abi_def_to_bin. rewrite convert_to_bin_eq, to_bin_vector, (cd_enc _ _ _ _ _ codec_abi d H). reflexivity. Qed.
Lemma abi_rt d rest : abi_def_ok d -> bytes_ok rest -> abi_def_from_bin (b_abi d ++ rest) = Ok (d, rest).
Proof.
  intros H Hr. assert (W : wf no_env 0 (erase abi_def_jty) (val_of_abi d) = true) by (apply (cd_wf _ _ _ _ _ codec_abi); eauto).
  destruct (rt_bin _ _ _ _ W) as (b & Eb & _ & R). rewrite (cd_enc _ _ _ _ _ codec_abi d H) in Eb. assert (b = b_abi d) by congruence. subst b.
  unfold abi_def_from_bin. rewrite (R rest Hr). cbn [bind]. now rewrite (cd_back _ _ _ _ _ codec_abi d H).
Qed.
Definition abi_fields8 : list ty :=
  [TString; erase (JVec type_def_jty); erase (JVec struct_def_jty); erase (JVec action_def_jty); erase (JVec table_def_jty); erase (JVec clause_pair_jty);
   erase (JVec error_message_jty); erase extensions_jty].
Lemma abi_rt_old d : abi_def_ok d -> ad_variants d = [] -> abi_def_from_bin (b_abi_without_variants d) = Ok (d, []).
Proof.
  intros H V. pose proof H as (H0 & H1 & H2 & H3 & H4 & H5 & H6 & H7 & _).
  pose proof (codec_vec _ _ _ _ _ codec_type eq_refl) as C1. pose proof (codec_vec _ _ _ _ _ codec_struct_def eq_refl) as C2.
  pose proof (codec_vec _ _ _ _ _ codec_action eq_refl) as C3. pose proof (codec_vec _ _ _ _ _ codec_table eq_refl) as C4.
  pose proof (codec_vec _ _ _ _ _ codec_clause eq_refl) as C5. pose proof (codec_vec _ _ _ _ _ codec_error eq_refl) as C6.
  pose proof (codec_vec _ _ _ _ _ codec_extension eq_refl) as C7.
  pose proof (tc_cons _ _ _ _ _ _ _ _ _ codec_str (tc_cons _ _ _ _ _ _ _ _ _ C1 (tc_cons _ _ _ _ _ _ _ _ _ C2 (tc_cons _ _ _ _ _ _ _ _ _ C3 (tc_cons _ _ _ _ _ _ _ _ _ C4
    (tc_cons _ _ _ _ _ _ _ _ _ C5 (tc_cons _ _ _ _ _ _ _ _ _ C6 (tc_cons _ _ _ _ _ _ _ _ _ C7 tc_nil)))))))) as T.
  set (x := (ad_version d, (ad_types d, (ad_structs d, (ad_actions d, (ad_tables d, (ad_clauses d, (ad_errors d, (ad_extensions d, tt))))))))).
  assert (O : forallb2 (map (wf no_env 0) abi_fields8) (VStr (ad_version d) :: VList (map val_of_type (ad_types d)) :: VList (map val_of_struct (ad_structs d)) ::
     VList (map val_of_action (ad_actions d)) :: VList (map val_of_table (ad_tables d)) :: VList (map val_of_clause (ad_clauses d)) ::
     VList (map val_of_error (ad_errors d)) :: VList (map val_of_extension (ad_extensions d)) :: []) = true).
  { apply (tc_wf _ _ _ _ T). exists x. split; [reflexivity|]. unfold x. cbn [fst snd]. auto 20. }
  assert (Q := tc_enc _ _ _ _ T x). unfold x in Q at 1. cbn [fst snd] in Q. specialize (Q (conj H0 (conj H1 (conj H2 (conj H3 (conj H4 (conj H5 (conj H6 (conj H7 Logic.I))))))))).
  assert (W : wf no_env 0 (TTuple abi_fields8) (VList (VStr (ad_version d) :: VList (map val_of_type (ad_types d)) :: VList (map val_of_struct (ad_structs d)) ::
     VList (map val_of_action (ad_actions d)) :: VList (map val_of_table (ad_tables d)) :: VList (map val_of_clause (ad_clauses d)) ::
     VList (map val_of_error (ad_errors d)) :: VList (map val_of_extension (ad_extensions d)) :: [])) = true) by exact O.
  destruct (rt_bin _ _ _ _ W) as (b & Eb & _ & R). unfold x in Q. cbn [fst snd] in Q. 
  assert (b = b_abi_without_variants d).
  { assert (Ok b = Ok (b_abi_without_variants d)); [|congruence]. rewrite <- Eb. change (enc no_env 0 (TTuple abi_fields8) (VList ?l)) with (enc_tuple (map (enc no_env 0) abi_fields8) l).
    refine (eq_trans Q _). unfold b_abi_without_variants. now rewrite app_nil_r. }
  subst b. specialize (R [] ltac:(constructor)). rewrite app_nil_r in R.
  assert (R' : read_tuple (map (from_bin no_env 0) abi_fields8) (b_abi_without_variants d) = Ok ([VStr (ad_version d); VList (map val_of_type (ad_types d)); VList (map val_of_struct (ad_structs d));
     VList (map val_of_action (ad_actions d)); VList (map val_of_table (ad_tables d)); VList (map val_of_clause (ad_clauses d));
     VList (map val_of_error (ad_errors d)); VList (map val_of_extension (ad_extensions d))], [])).
  { change (from_bin no_env 0 (TTuple abi_fields8) (b_abi_without_variants d)) with
      (let* (l, s) := read_tuple (map (from_bin no_env 0) abi_fields8) (b_abi_without_variants d) in Ok (VList l, s)) in R.
    destruct (read_tuple (map (from_bin no_env 0) abi_fields8) (b_abi_without_variants d)) as [[l s]|e|w]; cbn [bind] in R; [|discriminate R|discriminate R]. injection R as -> ->. reflexivity. }
  assert (F : from_bin no_env 0 (erase abi_def_jty) (b_abi_without_variants d) = Ok (val_of_abi d, [])).
  { change (from_bin no_env 0 (erase abi_def_jty) (b_abi_without_variants d)) with
      (let* (l, s) := read_tuple (map (from_bin no_env 0) abi_fields8 ++ [from_bin no_env 0 (erase (JMaybe (JVec variant_def_jty)))]) (b_abi_without_variants d) in Ok (VList l, s)).
    rewrite read_tuple_app, R'. cbn [bind]. unfold val_of_abi. rewrite V. reflexivity. }
  unfold abi_def_from_bin. rewrite F. cbn [bind]. now rewrite (cd_back _ _ _ _ _ codec_abi d H).
Qed.
Lemma abi_sound s : bytes_ok s -> Z.of_nat (List.length s) < 2 ^ 32 ->
  match abi_def_from_bin s with
  | Ok (d, rest) => (exists used, s = used ++ rest) /\ abi_def_ok d
  | Err e => In e decode_errors
  | Undef w => False
  end.
Proof.
  intros Hs Hl. pose proof (native_decode_sound no_env 0 (erase abi_def_jty) s (fun _ => eq_refl) eq_refl Hs Hl) as H. unfold abi_def_from_bin.
  destruct (from_bin no_env 0 (erase abi_def_jty) s) as [[v rest]|e|w] eqn:F; cbn [bind].
  - destruct H as [U W]. apply (cd_wf _ _ _ _ _ codec_abi) in W as (d & -> & W). rewrite (cd_back _ _ _ _ _ codec_abi d W). auto.
  - exact H.
  - rewrite from_bin_unfold in F. now apply calm_defined in F.
Qed.
