(** * Prop_Ship: the state history protocol (C40) *)
From Verif Require Import Base Stream StreamFacts TypedBin TypedSpec TypedBinFacts TypedBinLocal TypedBinFuel Json JsonSpec Abi AbiScalar AbiDoc AbiRead
  Prop_Bin TypedJson TypedJsonSpec TypedJsonFacts Prop_TypedJson Opaque Prop_Opaque AbiDefSpec Prop_AbiBin Ship ShipSpec ShipFacts.

(** The messages of the protocol, the rows of its tables, and their formats. *)
Definition messages : list (jty * (nat -> fmt)) := [
  (request_t, fun _ => request); (result_t, fun _ => result); (signed_block_variant_t, fun _ => block);
  (table_delta_t, fun _ => delta); (transaction_trace_t, trace); (action_trace_t, fun _ => act_trace); (transaction_t, fun _ => trx);
  (account_t, fun _ => row_account); (account_metadata_t, fun _ => row_account_metadata); (code_t, fun _ => row_code);
  (contract_table_t, fun _ => row_contract_table); (contract_row_t, fun _ => row_contract_row); (contract_index64_t, fun _ => row_index64);
  (contract_index128_t, fun _ => row_index128); (contract_index256_t, fun _ => row_index256); (contract_index_double_t, fun _ => row_index_double);
  (contract_index_long_double_t, fun _ => row_index_long_double); (key_value_t, fun _ => row_key_value);
  (global_property_t, fun _ => row_global_property); (generated_transaction_t, fun _ => row_generated_transaction);
  (protocol_state_t, fun _ => row_protocol_state); (permission_t, fun _ => row_permission); (permission_link_t, fun _ => row_permission_link);
  (resource_limits_t, fun _ => row_resource_limits); (resource_usage_t, fun _ => row_resource_usage);
  (resource_limits_state_t, fun _ => row_resource_limits_state); (resource_limits_config_t, fun _ => row_resource_limits_config)].
Lemma messages_lay E fuel t f : In (t, f) messages -> layf E fuel t (f fuel).
Proof.
  assert (X : Forall (fun m => layf E fuel (fst m) (snd m fuel)) messages).
  { unfold messages. repeat first [apply Forall_nil | apply Forall_cons; [cbn [fst snd]|]].
    - apply l_request.
    - apply l_result.
    - apply l_block.
    - apply l_delta.
    - apply l_trace.
    - apply l_act_trace.
    - apply l_trx.
    - apply l_account.
    - apply l_account_metadata.
    - apply l_code.
    - apply l_contract_table.
    - apply l_contract_row.
    - apply l_index64.
    - apply l_index128.
    - apply l_index256.
    - apply l_index_double.
    - apply l_index_long_double.
    - apply l_key_value.
    - apply l_global_property.
    - apply l_generated_transaction.
    - apply l_protocol_state.
    - apply l_permission.
    - apply l_permission_link.
    - apply l_resource_limits.
    - apply l_resource_usage.
    - apply l_resource_limits_state.
    - apply l_resource_limits_config. }
  rewrite Forall_forall in X. intros H. exact (X (t, f) H).
Qed.

(** Every message, row and trace (nested [depth] deep) is written in the format of the protocol, and decodes to itself from those
    bytes, whatever follows them. *)
Theorem C40_wire_format t f depth v : In (t, f) messages -> wf ship_env depth (erase t) v = true ->
  convert_to_bin ship_env depth (erase t) v [] = Ok (wire (f depth) v) /\ bytes_ok (wire (f depth) v) /\
  (forall rest, bytes_ok rest -> from_bin ship_env depth (erase t) (wire (f depth) v ++ rest) = Ok (v, rest)).
Proof.
  intros H W. destruct (messages_lay {| fl_parse := fun _ _ => None; ov := Asset.Wrap |} depth t f H) as [L _].
  destruct (C03_native_binary_roundtrip _ _ _ _ W) as (b & E1 & D). destruct (C03_convert_roundtrip _ _ _ _ W) as (b' & E2 & _ & B).
  pose proof W as W'. rewrite wf_unfold in W'. specialize (L v W'). rewrite <- enc_unfold in L.
  rewrite to_bin_vector, L in E1. cbn [bind app] in E1. assert (b = wire (f depth) v) by congruence. subst b.
  rewrite convert_to_bin_eq, to_bin_vector, L in E2. cbn [bind app] in E2. assert (b' = wire (f depth) v) by congruence. subst b'.
  rewrite convert_to_bin_eq, to_bin_vector, L. split; [reflexivity|]. auto.
Qed.
Print Assumptions C40_wire_format.

(** The bytes of a message say where it ends: no message's bytes are a beginning of another's. *)
Theorem C40_self_delimiting t f d1 d2 v1 v2 extra : In (t, f) messages ->
  wf ship_env d1 (erase t) v1 = true -> wf ship_env d2 (erase t) v2 = true ->
  wire (f d1) v1 = wire (f d2) v2 ++ extra -> v1 = v2 /\ extra = [].
Proof.
  intros H W1 W2 Q. pose proof (C03_depth_monotone _ d1 (Nat.max d1 d2) _ _ ltac:(lia) W1) as M1. pose proof (C03_depth_monotone _ d2 (Nat.max d1 d2) _ _ ltac:(lia) W2) as M2.
  destruct (C40_wire_format t f d1 v1 H W1) as (_ & B1 & D1). destruct (C40_wire_format t f d2 v2 H W2) as (_ & B2 & D2).
  assert (Bx : bytes_ok extra) by (rewrite Q in B1; apply Forall_app in B1; tauto).
  specialize (D1 [] ltac:(constructor)). rewrite app_nil_r in D1. specialize (D2 extra Bx). rewrite <- Q in D2.
  destruct (from_bin_fuel ship_env d1 (Nat.max d1 d2) ltac:(lia) (erase t) (wire (f d1) v1)) as [U|U]; [rewrite D1 in U; discriminate U|].
  destruct (from_bin_fuel ship_env d2 (Nat.max d1 d2) ltac:(lia) (erase t) (wire (f d1) v1)) as [U'|U']; [rewrite D2 in U'; discriminate U'|].
  rewrite D1 in U. rewrite D2 in U'. rewrite <- U in U'. split; congruence.
Qed.
Print Assumptions C40_self_delimiting.

(** to_json writes the JSON document of the format. Only an unknown status, a time or a float without text, or data which cannot be
    shown (the sealed members of get_blocks_result_v1) makes it fail. *)
Theorem C40_json E t f depth v : In (t, f) messages -> wf ship_env depth (erase t) v = true ->
  convert_to_json E ship_jenv depth t v = (let* j := doc (f depth) E v in Ok (print j)).
Proof.
  intros H W. destruct (messages_lay E depth t f H) as [_ L]. pose proof (wf_jwf ship_jenv depth t v W) as J.
  rewrite (proj1 (C41_writes_the_document E ship_jenv depth t v J)). rewrite tdoc_unfold. rewrite wf_unfold in W. now rewrite (L v W).
Qed.
Print Assumptions C40_json.

(** Decoding arbitrary bytes as any message ends with a value of the type, an error or exhausted stack (or a bool byte other than 0
    and 1), and what was decoded can be written again. *)
Lemma messages_ok t f : In (t, f) messages -> ty_ok (erase t) = true /\ no_maybe (erase t) = true.
Proof.
  assert (X : forallb (fun m => ty_ok (erase (fst m)) && no_maybe (erase (fst m))) messages = true) by reflexivity.
  rewrite forallb_forall in X. intros H. specialize (X _ H). cbn [fst] in X. now apply andb_true_iff in X.
Qed.
Theorem C40_decode_total t f depth s : In (t, f) messages -> bytes_ok s -> Z.of_nat (List.length s) < 2 ^ 32 ->
  match from_bin ship_env depth (erase t) s with
  | Ok (v, rest) => wf ship_env depth (erase t) v = true /\ (exists consumed, s = consumed ++ rest) /\
      from_bin ship_env depth (erase t) (wire (f depth) v ++ rest) = Ok (v, rest)
  | Err e => In e [E_overrun; E_invalid_varuint_encoding; E_bad_variant_index; E_array_size_mismatch; E_length_error]
  | Undef w => In w ["bool object with a representation other than 0 or 1"; "NaN in std::set/std::map key"; "stack"]%string
  end.
Proof.
  intros H B L. pose proof (C04_native_decode_sound ship_env depth (erase t) s (fun _ => eq_refl) (proj1 (messages_ok t f H)) B L) as S.
  destruct (from_bin ship_env depth (erase t) s) as [[v rest]|e|w].
  - destruct S as [[c Q] W]. split; [exact W|]. split; [eauto|]. apply (C40_wire_format t f depth v H W). rewrite Q in B. apply Forall_app in B. tauto.
  - unfold decode_errors in S. cbn [In] in *. tauto.
  - exact S.
Qed.
Print Assumptions C40_decode_total.

(** ** Transaction status *)
Theorem C40_status :
  (forall z s, status_to_string z = Ok s -> get_transaction_status s = Ok z) /\
  (forall s z, get_transaction_status s = Ok z -> status_to_string z = Ok s) /\
  (forall z, (exists s, status_to_string z = Ok s) <-> 0 <= z <= 4) /\
  (forall s, (exists z, get_transaction_status s = Ok z) <-> In s [str "executed"; str "soft_fail"; str "hard_fail"; str "delayed"; str "expired"]) /\
  (forall z s, status_to_string z = Ok s -> forall E d, doc status E (VInt z) = Ok (JStr s) /\ convert_to_json E ship_jenv d transaction_status (VInt z) = Ok (34 :: s ++ [34])).
Proof.
  assert (A : forall z s, status_to_string z = Ok s -> (z = 0 /\ s = str "executed") \/ (z = 1 /\ s = str "soft_fail") \/ (z = 2 /\ s = str "hard_fail") \/
     (z = 3 /\ s = str "delayed") \/ (z = 4 /\ s = str "expired")).
  { intros z s H. unfold status_to_string in H.
    repeat match type of H with context [if ?c then _ else _] => let X := fresh "X" in destruct c eqn:X; [apply Z.eqb_eq in X; injection H as <-; tauto|] end. discriminate H. }
  assert (B : forall s z, get_transaction_status s = Ok z -> (z = 0 /\ s = str "executed") \/ (z = 1 /\ s = str "soft_fail") \/ (z = 2 /\ s = str "hard_fail") \/
     (z = 3 /\ s = str "delayed") \/ (z = 4 /\ s = str "expired")).
  { intros s z H. unfold get_transaction_status in H.
    repeat match type of H with context [if ?c then _ else _] => let X := fresh "X" in destruct c eqn:X; [apply beq_eq in X; injection H as <-; tauto|] end. discriminate H. }
  split; [|split; [|split; [|split]]].
  - intros z s H. apply A in H as [[-> ->]|[[-> ->]|[[-> ->]|[[-> ->]|[-> ->]]]]]; reflexivity.
  - intros s z H. apply B in H as [[-> ->]|[[-> ->]|[[-> ->]|[[-> ->]|[-> ->]]]]]; reflexivity.
  - intros z. split.
    + intros [s H]. apply A in H. lia.
    + intros H. assert (C : z = 0 \/ z = 1 \/ z = 2 \/ z = 3 \/ z = 4) by lia. destruct C as [->|[->|[->|[->| ->]]]]; eexists; reflexivity.
  - intros s. split.
    + intros [z H]. apply B in H. cbn [In]. destruct H as [[_ ->]|[[_ ->]|[[_ ->]|[[_ ->]|[_ ->]]]]]; tauto.
    + cbn [In]. intros [<-|[<-|[<-|[<-|[<-|H]]]]]; [..|contradiction H]; eexists; reflexivity.
  - intros z s H E d. apply A in H as [[-> ->]|[[-> ->]|[[-> ->]|[[-> ->]|[-> ->]]]]]; (split; [reflexivity|]); destruct d; reflexivity.
Qed.
Print Assumptions C40_status.

(** A status byte above 4 decodes (and encodes), but the message cannot be shown. *)
Theorem C40_unknown_status E z rest : 4 < z < 256 ->
  from_bin ship_env 0 (erase transaction_status) (z :: rest) = Ok (VInt z, rest) /\ status_to_string z = Err E_unknown_status /\
  convert_to_json E ship_jenv 0 transaction_status (VInt z) = Err E_unknown_status.
Proof.
  intros H. assert (M : 0 <= z) by lia. repeat split.
  - unfold transaction_status. cbn [erase from_bin from_bin_with]. change (Z.of_nat 1) with 1. unfold sread, check.
    destruct (Z.leb_spec 1 (Z.of_nat (List.length (z :: rest)))) as [_|X]; [|cbn [List.length] in X; lia]. cbn [bind].
    change (Z.to_nat 1) with 1%nat. cbn [firstn skipn of_raw le_val]. do 3 f_equal. lia.
  - unfold status_to_string. repeat match goal with |- context [if ?c then _ else _] => let X := fresh "X" in destruct c eqn:X; [apply Z.eqb_eq in X; lia|] end. reflexivity.
  - assert (W : wf ship_env 0 (erase transaction_status) (VInt z) = true).
    { cbn [erase transaction_status wf wf_with]. unfold int_ok, fits_u. cbn [Z.of_nat Pos.of_succ_nat]. change (2 ^ (8 * 1)) with 256. lia. }
    pose proof (wf_jwf ship_jenv 0 transaction_status (VInt z) W) as J. rewrite (proj1 (C41_writes_the_document E ship_jenv 0 _ _ J)).
    cbn [tdoc tdoc_with transaction_status]. unfold status_names. cbn [nthz].
    repeat match goal with |- context [if ?c then _ else _] => let X := fresh "X" in destruct c eqn:X; [apply Z.eqb_eq in X; lia|] end. reflexivity.
Qed.
Print Assumptions C40_unknown_status.

(** ** Sealed traces and deltas
    What get_blocks_result_v1 carries as traces (deltas) unpacks to the list that was packed, at once or one by one. *)
Theorem C40_sealed_lists t f depth l : In (t, f) messages -> wf ship_env depth (erase (JVec t)) (VList l) = true ->
  let packed := wire (list_of (f depth)) (VList l) in
  convert_to_bin ship_env depth (erase (JVec t)) (VList l) [] = Ok packed /\
  unpack ship_env depth (erase (JVec t)) (opaque_of_vector packed) = Ok (VList l, []) /\
  (Z.of_nat (List.length packed) < 2 ^ 32 -> bitwise_size (erase t) = None ->
   exists o, unpack_size (opaque_of_vector packed) = Ok (Z.of_nat (List.length l), o) /\ take_all ship_env depth (erase t) (List.length l) o = Ok (l, [])).
Proof.
  intros H W packed. assert (Bw : bitwise_size (erase t) = None).
  { assert (X : forallb (fun m => match bitwise_size (erase (fst m)) with None => true | _ => false end) messages = true) by reflexivity.
    rewrite forallb_forall in X. specialize (X _ H). cbn [fst] in X. destruct (bitwise_size (erase t)); [discriminate X|reflexivity]. }
  set (E0 := {| fl_parse := fun _ _ => None; ov := Asset.Wrap |}).
  pose proof (l_list E0 _ _ _ t (f depth) Bw (messages_lay E0 depth t f H)) as [L _].
  pose proof W as W'. rewrite wf_unfold in W'. specialize (L _ W'). rewrite <- enc_unfold in L. fold packed in L.
  destruct (C39_unpack _ _ _ _ W) as (b & E & B & U & _). pose proof E as E'. rewrite convert_to_bin_eq, to_bin_vector, L in E'. cbn [bind app] in E'.
  assert (b = packed) by congruence. subst b. split; [exact E|]. split; [exact U|]. intros Lb _.
  apply (C39_one_by_one ship_env depth (erase t) packed l []); auto.
  - apply (messages_ok t f H).
  - unfold packed, list_of, b_list. cbn [wire items]. unfold unpack_size.
    assert (Ll : 0 <= Z.of_nat (List.length l) < 2 ^ 32). { cbn [erase wf_with] in W'. apply andb_true_iff in W' as [W1 _]. unfold len_ok in W1. lia. }
    assert (Bc : bytes_ok (concat (map (wire (f depth)) l))). { unfold packed, list_of, b_list in B. cbn [wire items] in B. apply Forall_app in B. tauto. }
    destruct (C01_varuint32_roundtrip (Z.of_nat (List.length l)) (concat (map (wire (f depth)) l)) Ll Bc) as (b & Q & D & _).
    rewrite varuint32_to_bin_eq in Q by lia. destruct (Z.ltb_spec (Z.of_nat (List.length l)) (2 ^ 32)); [|lia].
    assert (X : b = encv (Z.of_nat (List.length l))). { rewrite (wbytes_write vector_stream hom_vector) in Q. cbn [vector_stream owrite app] in Q. congruence. }
    subst b. eauto.
Qed.
Print Assumptions C40_sealed_lists.

(** ** Nesting
    The traces of failed deferred transactions nest without bound, and so does the decoder: 62 bytes more per level make it
    recurse once more. (The ABI driven decoder stops at a fixed depth, C32.) *)
Fixpoint nested (n : nat) : val :=
  VVar 0 (VList [VList (repeat (VInt 0) 32); VInt 0; VInt 0; VInt 0; VInt 0; VInt 0; VBool false; VList []; VOpt None; VOpt None; VOpt None;
    VList (match n with O => [] | S m => [nested m] end); VOpt None]).
Lemma nested_wf_step ref x : wf_with ref (erase transaction_trace_t)
  (VVar 0 (VList [VList (repeat (VInt 0) 32); VInt 0; VInt 0; VInt 0; VInt 0; VInt 0; VBool false; VList []; VOpt None; VOpt None; VOpt None; VList x; VOpt None])) =
  (len_ok x && forallb (ref 0%nat) x && true).
Proof. reflexivity. Qed.
Lemma nested_wf : forall n m, wf ship_env m (erase transaction_trace_t) (nested n) = Nat.leb n m.
Proof.
  induction n as [|n IH]; intros m; rewrite wf_unfold; cbn [nested]; rewrite nested_wf_step; [reflexivity|].
  destruct m as [|m]; [reflexivity|]. cbn [forallb]. change (ship_env 0) with (erase transaction_trace_t). rewrite IH. cbn [Nat.leb]. destruct (Nat.leb n m); reflexivity.
Qed.
Lemma nested_length : forall n d, (n <= d)%nat -> List.length (wire (trace d) (nested n)) = (62 * S n)%nat.
Proof.
  assert (S0 : forall d x, List.length (wire (trace d) (VVar 0 (VList [VList (repeat (VInt 0) 32); VInt 0; VInt 0; VInt 0; VInt 0; VInt 0; VBool false; VList [];
     VOpt None; VOpt None; VOpt None; VList x; VOpt None]))) =
     (60 + (List.length (b_list (wire match d with O => sealed | S k => trace k end) x) + 1))%nat).
  { intros d x. assert (Q : wire (trace d) (VVar 0 (VList [VList (repeat (VInt 0) 32); VInt 0; VInt 0; VInt 0; VInt 0; VInt 0; VBool false; VList [];
     VOpt None; VOpt None; VOpt None; VList x; VOpt None])) = repeat 0 60 ++ b_list (wire match d with O => sealed | S k => trace k end) x ++ [0]) by (destruct d; reflexivity).
    rewrite Q, !app_length, repeat_length. reflexivity. }
  induction n as [|n IH]; intros d L; cbn [nested]; rewrite S0.
  - reflexivity.
  - destruct d as [|d]; [lia|]. unfold b_list. cbn [map concat List.length]. rewrite app_nil_r, app_length, (IH d) by lia. change (List.length (encv (Z.of_nat 1))) with 1%nat. lia.
Qed.
Theorem C40_nesting_is_unbounded n :
  exists bin v, List.length bin = (62 * S n)%nat /\ bytes_ok bin /\
    (forall depth, (n <= depth)%nat -> from_bin ship_env depth (erase transaction_trace_t) bin = Ok (v, [])) /\
    (Z.of_nat (62 * S n) < 2 ^ 32 -> forall depth, (depth < n)%nat -> from_bin ship_env depth (erase transaction_trace_t) bin = Undef "stack").
Proof.
  assert (W : wf ship_env n (erase transaction_trace_t) (nested n) = true) by (rewrite nested_wf; apply Nat.leb_refl).
  assert (I : In (transaction_trace_t, trace) messages) by (unfold messages; do 4 right; left; reflexivity).
  destruct (C40_wire_format _ _ n _ I W) as (_ & B & D). specialize (D [] ltac:(constructor)). rewrite app_nil_r in D.
  exists (wire (trace n) (nested n)), (nested n). split; [now apply nested_length|]. split; [exact B|]. split.
  - intros depth L. destruct (from_bin_fuel ship_env n depth L (erase transaction_trace_t) (wire (trace n) (nested n))) as [U|U]; [rewrite D in U; discriminate U|]. now rewrite <- U.
  - intros Lb depth L. destruct (from_bin_fuel ship_env depth n ltac:(lia) (erase transaction_trace_t) (wire (trace n) (nested n))) as [U|U]; [exact U|]. exfalso.
    rewrite <- (nested_length n n (le_n n)) in Lb. pose proof (C40_decode_total _ _ depth _ I B Lb) as Q. rewrite U, D in Q. destruct Q as [Q _].
    rewrite nested_wf in Q. apply Nat.leb_le in Q. lia.
Qed.
Print Assumptions C40_nesting_is_unbounded.

(** ** Examples *)
Definition ex_position (n : Z) : val := VList [VInt n; VList (repeat (VInt n) 32)].
Definition ex_request : val :=
  VVar 1 (VList [VInt 1; VInt 4294967295; VInt 10; VList [ex_position 7]; VBool false; VBool true; VBool true; VBool false]).
Definition ex_trace (inner : list val) : val :=
  VVar 0 (VList [VList (repeat (VInt 171) 32); VInt 2; VInt 100; VInt 300; VInt (-5); VInt 9; VBool true;
    VList [VVar 1 (VList [VInt 1; VInt 0; VOpt (Some (VVar 0 (VList [VInt 5; VList (repeat (VInt 1) 32); VInt 2; VInt 3; VList [VList [VInt 4; VInt 5]]; VInt 6; VInt 7])));
       VInt 8; VList [VInt 9; VInt 10; VList [VList [VInt 11; VInt 12]]; VStr [222; 173]]; VBool false; VInt 77; VStr (str "out"); VList [VList [VInt 1; VInt (-1)]]; VList [];
       VOpt (Some (VStr (str "oops"))); VOpt (Some (VInt 13)); VStr [1; 2; 3]])];
    VOpt (Some (VList [VInt 6138663577826885632; VInt (-40)])); VOpt None; VOpt None; VList inner;
    VOpt (Some (VVar 1 (VList [VInt 0; VInt 1; VInt 2; VInt 3; VInt 4; VInt 5; VList [VList [VInt 1; VStr [255]]]; VOpt (Some (VList [VVar 1 (VList [VList (repeat (VInt 9) 32)])]))])))]).
Example C40_hypotheses :
  wf ship_env 0 (erase request_t) ex_request = true /\
  wf ship_env 2 (erase transaction_trace_t) (ex_trace [ex_trace []; ex_trace [ex_trace []]]) = true /\
  wf ship_env 1 (erase transaction_trace_t) (ex_trace [ex_trace []; ex_trace [ex_trace []]]) = false /\
  wf ship_env 2 (erase (JVec transaction_trace_t)) (VList [ex_trace [ex_trace [ex_trace []]]; ex_trace []]) = true.
Proof. vm_compute. auto. Qed.
Example C40_example :
  wire request ex_request = [1; 1; 0; 0; 0; 255; 255; 255; 255; 10; 0; 0; 0; 1; 7; 0; 0; 0] ++ repeat 7 32 ++ [0; 1; 1; 0] /\
  convert_to_json no_floats ship_jenv 0 request_t ex_request =
    Ok (str "[""get_blocks_request_v0"",{""start_block_num"":1,""end_block_num"":4294967295,""max_messages_in_flight"":10,""have_positions"":[{""block_num"":7,""block_id"":""0707070707070707070707070707070707070707070707070707070707070707""}],""irreversible_only"":false,""fetch_block"":true,""fetch_traces"":true,""fetch_deltas"":false}]") /\
  from_bin ship_env 1 (erase transaction_trace_t) (wire (trace 1) (ex_trace [ex_trace []])) = Ok (ex_trace [ex_trace []], []) /\
  get_transaction_status (str "hard_fail") = Ok 2 /\ get_transaction_status (str "hardfail") = Err E_unknown_status.
Proof. vm_compute. auto 10. Qed.
