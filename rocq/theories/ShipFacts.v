(** * ShipFacts: the messages are written in the specified format *)
From Verif Require Import Base Stream StreamFacts TypedBin TypedSpec TypedBinFacts Hex Keys Json JsonSpec Abi AbiScalar AbiScalarFacts AbiRead
  TypedJson TypedJsonSpec TypedJsonFacts AbiDefSpec Ship ShipSpec.

Lemma envu_Ok z : fits_u 32 z = true -> envu z = Ok (encv z).
Proof. unfold fits_u, envu. intros H. now rewrite H. Qed.
Lemma envu_len {A} (l : list A) : len_ok l = true -> envu (Z.of_nat (List.length l)) = Ok (encv (Z.of_nat (List.length l))).
Proof. unfold len_ok. intros H. apply envu_Ok. unfold fits_u. apply andb_true_iff. split; [lia|exact H]. Qed.

Lemma enc_seq_all f w (P : val -> bool) l : (forall x, P x = true -> f x = Ok (w x)) -> forallb P l = true -> enc_seq f l = Ok (concat (map w l)).
Proof.
  intros H. induction l as [|x l IH]; intros Q; [reflexivity|]. cbn [forallb] in Q. apply andb_true_iff in Q as [Q1 Q2]. cbn [enc_seq map concat].
  rewrite (H x Q1), (IH Q2). reflexivity.
Qed.

Section Lays.
  Context (E : float_lib) (rwf : nat -> val -> bool) (renc : nat -> val -> res bytes) (rdoc : nat -> val -> res jv).
  Definition wlays (t : ty) (w : val -> bytes) : Prop := forall v, wf_with rwf t v = true -> enc_with renc t v = Ok (w v).
  Definition lays (t : jty) (f : fmt) : Prop :=
    wlays (erase t) (wire f) /\ forall v, wf_with rwf (erase t) v = true -> tdoc_with E rdoc t v = doc f E v.

  Lemma w_num sg n : wlays (TInt sg n) (fun v => le_bytes n (int_in v)).
  Proof. intros [z| | | | | |] H; try discriminate H. reflexivity. Qed.
  Lemma w_raw n sg : wlays (TArr n (TInt sg 1)) raw.
  Proof.
    intros [| | | |l| |] H; try discriminate H. cbn [wf_with] in H. apply andb_true_iff in H as [_ H].
    refine (enc_seq_all _ (fun x => le_bytes 1 (int_in x)) _ l _ H). exact (w_num sg 1).
  Qed.
  Lemma w_counted t : t = TString \/ t = TStream -> wlays t counted.
  Proof.
    intros [-> | ->] [| | |b| | |] H; try discriminate H; cbn [wf_with] in H; apply andb_true_iff in H as [_ H]; cbn [enc_with counted];
      rewrite (envu_len b H); reflexivity.
  Qed.
  Lemma w_raw_list : wlays (TVec (TInt false 1)) raw_list.
  Proof.
    intros [| | | |l| |] H; try discriminate H. cbn [wf_with] in H. apply andb_true_iff in H as [L H]. cbn [enc_with bitwise_size]. unfold raw_list, b_list. cbn [items].
    rewrite (envu_len l L).
    assert (X : raws (TInt false 1) l = Ok (concat (map (fun x => le_bytes 1 (int_in x)) l))).
    { clear L. induction l as [|x l IH]; [reflexivity|]. cbn [forallb] in H. apply andb_true_iff in H as [H1 H2]. cbn [raws map concat]. rewrite (IH H2).
      destruct x; try discriminate H1. cbn [raw_bytes bind]. reflexivity. }
    rewrite X. reflexivity.
  Qed.
  Lemma w_order ts ws : Forall2 wlays ts ws -> wlays (TTuple ts) (in_order ws).
  Proof.
    intros F [| | | |l| |] H; try discriminate H. cbn [wf_with] in H. cbn [enc_with]. unfold in_order. cbn [items].
    revert l H. induction F as [|t w ts ws A B IH]; intros [|x l] H; try discriminate H; [reflexivity|].
    cbn [map forallb2] in H. apply andb_true_iff in H as [H1 H2]. cbn [map enc_tuple combine concat fst snd]. rewrite (A x H1), (IH l H2). reflexivity.
  Qed.
  Lemma w_picked ts ws : Forall2 wlays ts ws -> wlays (TVariant ts) (picked ws).
  Proof.
    intros F [| | | | | |i x] H; try discriminate H. cbn [wf_with] in H. apply andb_true_iff in H as [Hi H]. cbn [enc_with picked]. rewrite (envu_Ok i Hi).
    assert (X : match nthz (map (enc_with renc) ts) i with Some f => f x | None => Undef "ill-typed value" end = Ok (match nthz ws i with Some f => f x | None => [] end)).
    { clear Hi. revert i H. induction F as [|t w ts ws A B IH]; intros i H; [discriminate H|]. cbn [map nthz] in H |- *.
      destruct (i =? 0); [exact (A x H)|]. apply IH. exact H. }
    rewrite X. reflexivity.
  Qed.
  Lemma w_wrap k t w : wlays t w -> wlays (TWrap k t) w.
  Proof. intros H v. exact (H v). Qed.

  Lemma l_scalar b f : wlays (scalar_ty b) (wire f) -> (forall v, doc f E v = scalar_jv E b v) -> lays (JScalar b) f.
  Proof. intros H D. split; [exact H|]. intros v _. now rewrite D. Qed.
  Lemma l_pub_key : lays (JScalar B_public_key) pub_key.
  Proof.
    apply l_scalar; [|reflexivity]. apply w_picked. constructor; [apply w_raw|]. constructor; [apply w_raw|]. constructor; [|constructor].
    apply w_wrap, w_order. constructor; [apply w_raw|]. constructor; [apply w_num|]. constructor; [apply w_counted; auto|constructor].
  Qed.
  Lemma l_sig : lays (JScalar B_signature) sig.
  Proof.
    apply l_scalar; [|reflexivity]. apply w_picked. constructor; [apply w_raw|]. constructor; [apply w_raw|]. constructor; [|constructor].
    apply w_wrap, w_order. constructor; [apply w_raw|]. constructor; [apply w_raw_list|]. constructor; [apply w_counted; auto|constructor].
  Qed.
  Lemma l_num b n sg : scalar_ty b = TInt sg n -> lays (JScalar b) (num n b).
  Proof. intros H. apply l_scalar; [|reflexivity]. rewrite H. apply w_num. Qed.
  Lemma l_value b n sg k : scalar_ty b = TWrap k (TInt sg n) -> lays (JScalar b) (num n b).
  Proof. intros H. apply l_scalar; [|reflexivity]. rewrite H. apply w_wrap, w_num. Qed.
  Lemma l_leb : lays (JScalar B_varuint32) leb.
  Proof. apply l_scalar; [|reflexivity]. intros [z| | | | | |] H; try discriminate H. cbn [scalar_ty wf_with] in H. cbn [scalar_ty enc_with]. now rewrite envu_Ok. Qed.
  Lemma l_flag : lays (JScalar B_bool) flag.
  Proof. apply l_scalar; [|reflexivity]. intros [|[]| | | | |] H; try discriminate H; reflexivity. Qed.
  Lemma l_double : lays (JScalar B_float64) double.
  Proof. apply l_scalar; [|reflexivity]. intros [| |n b| | | |] H; try discriminate H. reflexivity. Qed.
  Lemma l_hash : lays (JScalar B_checksum256) hash.
  Proof. apply l_scalar; [|reflexivity]. apply w_raw. Qed.
  Lemma l_quad : lays (JScalar B_float128) quad.
  Proof. apply l_scalar; [|reflexivity]. apply w_raw. Qed.
  Lemma l_text : lays (JScalar B_string) text.
  Proof. apply l_scalar; [|reflexivity]. apply w_counted; auto. Qed.
  Lemma l_data : lays JView data.
  Proof. split; [apply w_counted; auto|]. intros [] H; try discriminate H. reflexivity. Qed.
  Lemma l_sealed t : lays (JOpaque t) sealed.
  Proof. split; [apply w_counted; auto|]. intros [] H; reflexivity. Qed.
  Lemma l_status : lays transaction_status status.
  Proof.
    split; [apply w_num|]. intros [z| | | | | |] H; try discriminate H. cbn [wf_with erase transaction_status] in H. unfold int_ok, fits_u in H.
    unfold transaction_status, status_names. cbn [tdoc_with doc status nthz].
    destruct z as [|p|p]; [reflexivity| |cbn in H; discriminate H].
    destruct p as [p|p|]; [destruct p as [p|p|]|destruct p as [p|p|]|reflexivity]; try reflexivity;
      cbn [nthz Z.eqb Pos.eqb]; try (destruct p as [p|p|]; try reflexivity);
      repeat match goal with |- context [if ?c then _ else _] => let X := fresh in destruct c eqn:X; [apply Z.eqb_eq in X; lia|] end; reflexivity.
  Qed.
  Lemma l_list t f : bitwise_size (erase t) = None -> lays t f -> lays (JVec t) (list_of f).
  Proof.
    intros B [W D]. split.
    - intros [| | | |l| |] H; try discriminate H. cbn [erase wf_with] in H. apply andb_true_iff in H as [L H]. cbn [erase enc_with wire list_of items]. rewrite B, (envu_len l L). unfold b_list.
      assert (X : enc_seq (enc_with renc (erase t)) l = Ok (concat (map (wire f) l))).
      { clear L. induction l as [|x l IH]; [reflexivity|]. cbn [forallb] in H. apply andb_true_iff in H as [H1 H2]. cbn [enc_seq map concat]. rewrite (W x H1), (IH H2). reflexivity. }
      rewrite X. reflexivity.
    - intros [| | | |l| |] H; try discriminate H. cbn [erase wf_with] in H. apply andb_true_iff in H as [_ H]. cbn [tdoc_with doc list_of].
      assert (X : mapm (map (tdoc_with E rdoc t) l) = all_docs E f l).
      { induction l as [|x l IH]; [reflexivity|]. cbn [forallb] in H. apply andb_true_iff in H as [H1 H2]. cbn [map mapm all_docs]. now rewrite (D x H1), (IH H2). }
      now rewrite X.
  Qed.
  Lemma l_opt t f : lays t f -> lays (JOpt t) (opt f).
  Proof.
    intros [W D]. split.
    - intros [| | | | |[x|]|] H; try discriminate H; cbn [erase wf_with] in H; cbn [erase enc_with wire opt]; [|reflexivity]. rewrite (W x H). reflexivity.
    - intros [| | | | |[x|]|] H; try discriminate H; cbn [erase wf_with] in H; cbn [tdoc_with doc opt]; [|reflexivity]. exact (D x H).
  Qed.
  Lemma l_obj n fs gs : Forall2 (fun f g => fst f = str (fst g) /\ lays (snd f) (snd g)) fs gs -> lays (JStruct n fs) (obj gs).
  Proof.
    intros F. split.
    - cbn [erase wire obj]. apply w_wrap, w_order. induction F as [|f g fs gs [A B] C IH]; cbn [map]; constructor; auto. exact (proj1 B).
    - intros [| | | |l| |] H; try discriminate H. cbn [erase wf_with] in H. cbn [tdoc_with doc obj]. f_equal.
      revert l H. induction F as [|f g fs gs [A B] C IH]; intros [|x l] H; try discriminate H; [reflexivity|]. cbn [map forallb2] in H. apply andb_true_iff in H as [H1 H2].
      destruct g as [gn gf]. cbn [fst snd] in A, B. cbn [members_doc]. rewrite <- A. rewrite (proj2 B x H1), (IH l H2). reflexivity.
  Qed.
  Lemma l_one_of ts gs : Forall2 (fun t g => type_name t = str (fst g) /\ lays t (snd g)) ts gs -> lays (JVariant ts) (one_of gs).
  Proof.
    intros F. split.
    - cbn [erase wire one_of]. apply w_picked. induction F as [|f g fs gs [A B] C IH]; cbn [map]; constructor; auto. exact (proj1 B).
    - intros [| | | | | |i x] H; try discriminate H. cbn [erase wf_with] in H. apply andb_true_iff in H as [_ H]. cbn [tdoc_with doc one_of].
      revert i H. induction F as [|f g fs gs [A B] C IH]; intros i H; [discriminate H|]. cbn [map nthz] in H |- *. destruct (i =? 0).
      + destruct g as [gn gf]. cbn [fst snd] in A, B. rewrite <- A. now rewrite (proj2 B x H).
      + apply IH. exact H.
  Qed.
End Lays.

Ltac lay :=
  lazymatch goal with
  | |- lays _ _ _ _ ?t _ =>
      let t' := eval hnf in t in
      lazymatch t' with
      | JScalar B_public_key => apply l_pub_key
      | JScalar B_signature => apply l_sig
      | JScalar B_varuint32 => apply l_leb
      | JScalar B_bool => apply l_flag
      | JScalar B_float64 => apply l_double
      | JScalar B_checksum256 => apply l_hash
      | JScalar B_float128 => apply l_quad
      | JScalar B_string => apply l_text
      | JScalar _ => first [eapply l_num; reflexivity|eapply l_value; reflexivity]
      | JView => apply l_data
      | JOpaque _ => apply l_sealed
      | JEnum _ => apply l_status
      | JVec _ => apply l_list; [reflexivity|lay]
      | JOpt _ => apply l_opt; lay
      | JStruct _ _ => apply l_obj; lay
      | JVariant _ => apply l_one_of; lay
      | _ => try assumption
      end
  | |- Forall2 ?R ?a ?b =>
      let a' := eval hnf in a in let b' := eval hnf in b in change (Forall2 R a' b');
      lazymatch a' with
      | [] => apply Forall2_nil
      | _ => apply Forall2_cons; [split; [reflexivity|cbn [fst snd]; lay]|lay]
      end
  end.

Section Messages.
  Context (E : float_lib) (rwf : nat -> val -> bool) (renc : nat -> val -> res bytes) (rdoc : nat -> val -> res jv).
  Notation lays := (lays E rwf renc rdoc).
  Lemma l_request : lays request_t request. Proof. lay. Qed.
  Lemma l_block : lays signed_block_variant_t block. Proof. lay. Qed.
  Lemma l_result : lays result_t result. Proof. lay. Qed.
  Lemma l_delta : lays table_delta_t delta. Proof. lay. Qed.
  Lemma l_act_trace : lays action_trace_t act_trace. Proof. lay. Qed.
  Lemma l_trx : lays transaction_t trx. Proof. lay. Qed.
  Lemma l_account : lays account_t row_account. Proof. lay. Qed.
  Lemma l_account_metadata : lays account_metadata_t row_account_metadata. Proof. lay. Qed.
  Lemma l_code : lays code_t row_code. Proof. lay. Qed.
  Lemma l_contract_table : lays contract_table_t row_contract_table. Proof. lay. Qed.
  Lemma l_contract_row : lays contract_row_t row_contract_row. Proof. lay. Qed.
  Lemma l_index64 : lays contract_index64_t row_index64. Proof. lay. Qed.
  Lemma l_index128 : lays contract_index128_t row_index128. Proof. lay. Qed.
  Lemma l_index256 : lays contract_index256_t row_index256. Proof. lay. Qed.
  Lemma l_index_double : lays contract_index_double_t row_index_double. Proof. lay. Qed.
  Lemma l_index_long_double : lays contract_index_long_double_t row_index_long_double. Proof. lay. Qed.
  Lemma l_key_value : lays key_value_t row_key_value. Proof. lay. Qed.
  Lemma l_global_property : lays global_property_t row_global_property. Proof. lay. Qed.
  Lemma l_generated_transaction : lays generated_transaction_t row_generated_transaction. Proof. lay. Qed.
  Lemma l_protocol_state : lays protocol_state_t row_protocol_state. Proof. lay. Qed.
  Lemma l_permission : lays permission_t row_permission. Proof. lay. Qed.
  Lemma l_permission_link : lays permission_link_t row_permission_link. Proof. lay. Qed.
  Lemma l_resource_limits : lays resource_limits_t row_resource_limits. Proof. lay. Qed.
  Lemma l_resource_usage : lays resource_usage_t row_resource_usage. Proof. lay. Qed.
  Lemma l_resource_limits_state : lays resource_limits_state_t row_resource_limits_state. Proof. lay. Qed.
  Lemma l_resource_limits_config : lays resource_limits_config_t row_resource_limits_config. Proof. lay. Qed.
  Lemma l_trace_step depth : lays (JRef 0) (match depth with O => sealed | S d => trace d end) -> lays transaction_trace_t (trace depth).
  Proof. intros H. destruct depth; lay. Qed.
End Messages.

Definition layf (E : float_lib) (fuel : nat) (t : jty) (f : fmt) : Prop :=
  lays E (fun n v => match fuel with O => false | S k => wf ship_env k (ship_env n) v end)
         (fun n v => match fuel with O => Undef "stack" | S k => enc ship_env k (ship_env n) v end)
         (fun n v => match fuel with O => Undef "stack" | S k => tdoc E ship_jenv k (ship_jenv n) v end) t f.
Lemma wf_unfold env fuel : wf env fuel = wf_with (fun n v => match fuel with O => false | S f => wf env f (env n) v end).
Proof. destruct fuel; reflexivity. Qed.
Lemma tdoc_unfold E env fuel : tdoc E env fuel = tdoc_with E (fun n v => match fuel with O => Undef "stack" | S f => tdoc E env f (env n) v end).
Proof. destruct fuel; reflexivity. Qed.
Lemma l_trace E : forall fuel, layf E fuel transaction_trace_t (trace fuel).
Proof.
  induction fuel as [|fuel IH]; apply l_trace_step.
  - split; intros v H; discriminate H.
  - destruct IH as [W D]. split; intros v H; cbn [erase wf_with] in H.
    + cbn [erase enc_with]. rewrite enc_unfold. apply W. rewrite <- wf_unfold. exact H.
    + cbn [tdoc_with]. rewrite tdoc_unfold. apply D. cbn [erase wf_with]. rewrite <- wf_unfold. exact H.
Qed.

(** ** Values of the C++ types, for the JSON theorems *)
Section JWf.
  Context (env : nat -> ty) (rwf rjwf : nat -> val -> bool).
  Hypothesis R : forall n v, rwf n v = true -> rjwf n v = true.
  Lemma scalar_wf b v : wf_with rwf (scalar_ty b) v = true -> wf key_env 0 (scalar_ty b) v = true.
  Proof. intros H. destruct b; try exact H; cbn [scalar_ty] in *; exact H. Qed.
  Lemma wf_jwf_with : forall t v, wf_with rwf (erase t) v = true -> jwf_with rjwf t v = true.
  Proof.
    induction t as [b|t IH|t IH|ts IH|nm fs IH|a b IHa IHb|t IH| |t IH|names|k] using jty_ind'; intros v H.
    - now apply scalar_wf.
    - destruct v as [| | | |l| |]; try discriminate H. cbn [erase wf_with] in H. apply andb_true_iff in H as [_ H]. cbn [jwf_with].
      rewrite forallb_forall in *. auto.
    - destruct v as [| | | | |[x|]|]; try discriminate H; cbn [jwf_with]; [|reflexivity]. now apply IH.
    - destruct v as [| | | | | |i x]; try discriminate H. cbn [erase wf_with] in H. apply andb_true_iff in H as [_ H]. cbn [jwf_with].
      revert i H. induction IH as [|t ts A B IHl]; intros i H; [discriminate H|]. cbn [map nthz] in *. destruct (i =? 0); [now apply A|]. now apply IHl.
    - destruct v as [| | | |l| |]; try discriminate H. cbn [erase wf_with] in H. cbn [jwf_with].
      revert l H. induction IH as [|f fs A B IHl]; intros [|x l] H; try discriminate H; [reflexivity|]. cbn [map forallb2] in *.
      apply andb_true_iff in H as [H1 H2]. rewrite (A x H1). cbn [andb]. now apply IHl.
    - destruct v as [| | | |[|x [|y [|z l]]]| |]; try discriminate H; cbn [erase wf_with map forallb2] in H.
      + apply andb_true_iff in H as [_ H]; discriminate H.
      + apply andb_true_iff in H as [H1 H2]. apply andb_true_iff in H2 as [H2 _]. cbn [jwf_with]. now rewrite (IHa x H1), (IHb y H2).
      + rewrite !andb_true_iff in H. destruct H as (_ & _ & H). discriminate H.
    - cbn [erase wf_with] in H. apply andb_true_iff in H as [_ H]. cbn [jwf_with]. now apply IH.
    - destruct v; try discriminate H. cbn [erase wf_with] in H. apply andb_true_iff in H as [H _]. exact H.
    - destruct v; try discriminate H. cbn [erase wf_with] in H. apply andb_true_iff in H as [H _]. exact H.
    - destruct v; try discriminate H. cbn [erase wf_with] in H. unfold int_ok in H. apply andb_true_iff in H as [_ H]. exact H.
    - cbn [erase wf_with jwf_with] in *. now apply R.
  Qed.
End JWf.
Lemma wf_jwf jenv : forall fuel t v, wf (fun n => erase (jenv n)) fuel (erase t) v = true -> jwf jenv fuel t v = true.
Proof.
  induction fuel as [|fuel IH]; intros t v H.
  - cbn [wf] in H. cbn [jwf]. eapply wf_jwf_with; [|exact H]. discriminate.
  - cbn [wf] in H. cbn [jwf]. eapply wf_jwf_with; [|exact H]. intros n x. apply IH.
Qed.
