(** * C05, the other two pass conversions: convert_to_key, convert_to_json, format_json

    Each first measures with a size_stream and then writes into a buffer of that size (to_key.hpp:280-289,
    to_json.hpp:257-277); both passes run the same writer. *)
From Verif Require Import Base Stream TypedBin TypedBinFacts Json JsonSpec ToKey ToKeyFacts Abi AbiScalar Prop_AbiBin TypedJson TypedJsonSpec TypedJsonFacts Prop_TypedJson.

Theorem C05_two_pass_key : forall env fuel t v,
  (forall bin, to_key env fuel t vector_stream v [] = Ok bin ->
     to_key env fuel t size_stream v 0%nat = Ok (List.length bin) /\
     to_key env fuel t fixed_buf_stream v ([], List.length bin) = Ok (bin, 0%nat) /\
     (forall room, (room < List.length bin)%nat -> to_key env fuel t fixed_buf_stream v ([], room) = Err E_overrun) /\
     forall old, convert_to_key env fuel t v old = Ok (old ++ bin)) /\
  (forall e, to_key env fuel t vector_stream v [] = Err e -> forall old, convert_to_key env fuel t v old = Err e).
Proof.
  intros env fuel t v. split.
  - intros bin H. rewrite to_key_vector in H. destruct (kenc env fuel t v) as [k| |] eqn:K; cbn [bind app] in H; try discriminate. assert (k = bin) by congruence. subst k.
    split; [rewrite to_key_size, K; reflexivity|]. split; [|split].
    + rewrite (to_key_fixed env fuel t v bin _ K). cbn [owrite fixed_buf_stream]. rewrite (proj2 (Nat.leb_le _ _)) by lia. cbn [check bind app]. now rewrite Nat.sub_diag.
    + intros room L. rewrite (to_key_fixed env fuel t v bin _ K). cbn [owrite fixed_buf_stream]. rewrite (proj2 (Nat.leb_gt _ _)) by lia. reflexivity.
    + intros old. rewrite convert_to_key_eq, K. reflexivity.
  - intros e H old. rewrite to_key_vector in H. rewrite convert_to_key_eq. destruct (kenc env fuel t v) as [k| |]; cbn [bind app] in *; [discriminate H|injection H as ->; reflexivity|discriminate H].
Qed.
Print Assumptions C05_two_pass_key.

Lemma pieces_vector : pieces vector_stream.
Proof. split; [intros s|intros s a b]; cbn [owrite vector_stream bind]; [now rewrite app_nil_r|now rewrite app_assoc]. Qed.
Lemma over (b : bytes) room : (room < List.length b)%nat -> owrite fixed_buf_stream ([], room) b = Err E_overrun.
Proof. intros L. cbn [owrite fixed_buf_stream]. rewrite (proj2 (Nat.leb_gt _ _)) by lia. reflexivity. Qed.
Lemma fits (b : bytes) : owrite fixed_buf_stream ([], List.length b) b = Ok (b, 0%nat).
Proof. cbn [owrite fixed_buf_stream]. rewrite (proj2 (Nat.leb_le _ _)) by lia. cbn [check bind app]. now rewrite Nat.sub_diag. Qed.
Theorem C05_two_pass_json E env fuel t v text : jwf env fuel t v = true -> convert_to_json E env fuel t v = Ok text ->
  to_json (plain_out vector_stream) E env fuel t v [] = Ok text /\
  to_json (plain_out size_stream) E env fuel t v 0%nat = Ok (List.length text) /\
  to_json (plain_out fixed_buf_stream) E env fuel t v ([], List.length text) = Ok (text, 0%nat) /\
  forall room, (room < List.length text)%nat -> to_json (plain_out fixed_buf_stream) E env fuel t v ([], room) = Err E_overrun.
Proof.
  intros W H. rewrite convert_to_json_spec in H by exact W. destruct (tdoc E env fuel t v) as [j|e|u] eqn:D; cbn [bind] in H; try discriminate. assert (X : print j = text) by congruence. clear H.
  split; [|split; [|split]].
  - etransitivity; [exact (to_json_Ok _ _ _ _ _ (lays_plain _ pieces_vector) pieces_vector E env fuel t v j W D [] 0%nat)|]. rewrite lay_print, X. reflexivity.
  - etransitivity; [exact (to_json_Ok _ _ _ _ _ (lays_plain _ pieces_size) pieces_size E env fuel t v j W D 0%nat 0%nat)|]. rewrite lay_print, X. reflexivity.
  - etransitivity; [exact (to_json_Ok _ _ _ _ _ (lays_plain _ pieces_fixed) pieces_fixed E env fuel t v j W D ([], List.length text) 0%nat)|]. rewrite lay_print, X. unfold w. rewrite fits. reflexivity.
  - intros room L. etransitivity; [exact (to_json_Ok _ _ _ _ _ (lays_plain _ pieces_fixed) pieces_fixed E env fuel t v j W D ([], room) 0%nat)|]. rewrite lay_print, X. unfold w. rewrite over by exact L. reflexivity.
Qed.
Print Assumptions C05_two_pass_json.
(** A failing writer fails the conversion, in the same way. *)
Theorem C05_two_pass_json_fails E env fuel t v : jwf env fuel t v = true -> forall e,
  convert_to_json E env fuel t v = Err e <-> to_json (plain_out vector_stream) E env fuel t v [] = Err e.
Proof.
  intros W e. rewrite convert_to_json_spec by exact W.
  pose proof (to_json_ends_gen (plain_out vector_stream) E env (fun _ _ => True)) as Q.
  specialize (Q ltac:(intros; eexists; split; [reflexivity|exact Logic.I]) ltac:(auto) ltac:(intros; eexists; split; [reflexivity|exact Logic.I])
    ltac:(intros; eexists; split; [reflexivity|exact Logic.I]) ltac:(intros; eexists; split; [reflexivity|exact Logic.I]) fuel t v 0%nat [] W Logic.I).
  unfold ends in Q. destruct (tdoc E env fuel t v); cbn [bind].
  - destruct Q as (s' & Q & _). split; [discriminate|]. intros H. rewrite H in Q. discriminate Q.
  - split; intros H; [rewrite Q|rewrite Q in H]; injection H as ->; reflexivity.
  - split; [discriminate|]. intros H. rewrite Q in H. discriminate H.
Qed.
Print Assumptions C05_two_pass_json_fails.
Theorem C05_two_pass_format_json E env fuel t v text : jwf env fuel t v = true -> format_json E env fuel t v = Ok text ->
  to_json (pretty_out vector_stream) E env fuel t v ([], 0%nat) = Ok (text, 0%nat) /\
  to_json (pretty_out size_stream) E env fuel t v (0%nat, 0%nat) = Ok (List.length text, 0%nat) /\
  to_json (pretty_out fixed_buf_stream) E env fuel t v (([], List.length text), 0%nat) = Ok ((text, 0%nat), 0%nat) /\
  forall room, (room < List.length text)%nat -> to_json (pretty_out fixed_buf_stream) E env fuel t v (([], room), 0%nat) = Err E_overrun.
Proof.
  intros W H. rewrite format_json_spec in H by exact W. destruct (tdoc E env fuel t v) as [j|e|u] eqn:D; cbn [bind] in H; try discriminate. assert (X : layout 0 j = text) by congruence. clear H.
  split; [|split; [|split]].
  - etransitivity; [exact (to_json_Ok _ _ _ _ _ (lays_pretty _ pieces_vector) pieces_vector E env fuel t v j W D [] 0%nat)|]. rewrite lay_layout, X. reflexivity.
  - etransitivity; [exact (to_json_Ok _ _ _ _ _ (lays_pretty _ pieces_size) pieces_size E env fuel t v j W D 0%nat 0%nat)|]. rewrite lay_layout, X. reflexivity.
  - etransitivity; [exact (to_json_Ok _ _ _ _ _ (lays_pretty _ pieces_fixed) pieces_fixed E env fuel t v j W D ([], List.length text) 0%nat)|]. rewrite lay_layout, X. unfold w. rewrite fits. reflexivity.
  - intros room L. etransitivity; [exact (to_json_Ok _ _ _ _ _ (lays_pretty _ pieces_fixed) pieces_fixed E env fuel t v j W D ([], room) 0%nat)|]. rewrite lay_layout, X. unfold w. rewrite over by exact L. reflexivity.
Qed.
Print Assumptions C05_two_pass_format_json.

(** The hypotheses are met. *)
Example two_pass_example :
  let t := JVec (JStruct (str "in") [(str "s", JScalar B_string)]) in let v := VList [VList [VStr (str "a""b")]] in
  jwf (fun _ => JView) 0 t v = true /\
  convert_to_json no_floats (fun _ => JView) 0 t v = Ok (str "[{""s"":""a\""b""}]") /\
  exists text, format_json no_floats (fun _ => JView) 0 t v = Ok text.
Proof. cbv zeta. split; [reflexivity|]. split; [vm_compute; reflexivity|]. eexists. vm_compute. reflexivity. Qed.
