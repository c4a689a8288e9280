(** * C63: the callback of the converters *)
From Verif Require Import Base Stream TypedBin Json JsonSpec JsonFacts JsonPrint AbiReadBack Keys Abi AbiSpec AbiFacts AbiScalar Machine AbiValue AbiBin AbiBinSound AbiJson AbiRead AbiJvalue AbiUse SizeSpec SizeBomb Prop_Size Watch WatchSpec WatchFacts.

(** ** The callback only watches: the states in which it is called and the outcome do not depend on it *)
Theorem C63_bin_to_json E m p bin r : bin_to_json E m p bin r ->
  exists calls, forall throws e, bin_to_json_with throws E m p bin e <-> calls_are calls r throws e.
Proof.
  unfold bin_to_json, bin_to_json_with, exec_from. destruct (bstart _ _ _ _ _ _) as [s|x|w]; intros H.
  - destruct (watched_exec (bstep E m) bcalling s r H) as (l & L). exists l. intros throws e. exact (iff_trans (L throws 0%nat e) (as_called_cases (bstep E m) bcalling l r throws 0 e)).
  - exists []. intros throws e. subst r. split; [intros ->; left; split; [reflexivity|intros i Hi; cbn in Hi; lia]|]. intros [[-> _]|(i & s & H & _)]; [reflexivity|destruct i; discriminate H].
  - exists []. intros throws e. subst r. split; [intros ->; left; split; [reflexivity|intros i Hi; cbn in Hi; lia]|]. intros [[-> _]|(i & s & H & _)]; [reflexivity|destruct i; discriminate H].
Qed.
Print Assumptions C63_bin_to_json.
Theorem C63_json_to_bin E m p json bin r : json_to_bin E m p json bin r ->
  exists calls, forall throws e, json_to_bin_with throws E m p json bin e <-> calls_are calls r throws e.
Proof.
  unfold json_to_bin, json_to_bin_with. intros H. destruct (watched_exec (jstep E m bin) jcalling _ r H) as (l & L). exists l. intros throws e. exact (iff_trans (L throws 0%nat e) (as_called_cases (jstep E m bin) jcalling l r throws 0 e)).
Qed.
Print Assumptions C63_json_to_bin.
Theorem C63_json_to_bin_reorderable E m p json bin r : json_to_bin_reorderable E m p json bin r ->
  exists calls, forall throws e, json_to_bin_reorderable_with throws E m p json bin e <-> calls_are calls r throws e.
Proof.
  unfold json_to_bin_reorderable, json_to_bin_reorderable_with, jvalue_to_bin. destruct (json_to_jvalue json) as [x|x|w]; intros H.
  - destruct (watched_exec (rstep E m) rcalling _ r H) as (l & L). exists l. intros throws e. exact (iff_trans (L throws 0%nat e) (as_called_cases (rstep E m) rcalling l r throws 0 e)).
  - exists []. intros throws e. subst r. split; [intros ->; left; split; [reflexivity|intros i Hi; cbn in Hi; lia]|]. intros [[-> _]|(i & s & H & _)]; [reflexivity|destruct i; discriminate H].
  - exists []. intros throws e. subst r. split; [intros ->; left; split; [reflexivity|intros i Hi; cbn in Hi; lia]|]. intros [[-> _]|(i & s & H & _)]; [reflexivity|destruct i; discriminate H].
Qed.
Print Assumptions C63_json_to_bin_reorderable.

(** Conversely, what a conversion with a callback comes to by itself is what it comes to without. *)
Theorem C63_outcome E m p throws k :
  (forall bin r, bin_to_json_with throws E m p bin (Ended r k) -> bin_to_json E m p bin r) /\
  (forall json bin r, json_to_bin_with throws E m p json bin (Ended r k) -> json_to_bin E m p json bin r) /\
  (forall json bin r, json_to_bin_reorderable_with throws E m p json bin (Ended r k) -> json_to_bin_reorderable E m p json bin r).
Proof.
  split; [|split].
  - intros bin r. unfold bin_to_json, bin_to_json_with, exec_from. destruct (bstart _ _ _ _ _ _) as [s|x|w]; [apply unwatched|congruence|congruence].
  - intros json bin r. unfold json_to_bin, json_to_bin_with. apply unwatched.
  - intros json bin r. unfold json_to_bin_reorderable, json_to_bin_reorderable_with, jvalue_to_bin. destruct (json_to_jvalue json); [apply unwatched|congruence|congruence].
Qed.
Print Assumptions C63_outcome.

(** ** What the callback can rely on *)
(** JSON to bytes: no more calls than bytes of text, whatever the definitions. *)
Theorem C63_json_calls E m throws p json bin e : json_to_bin_with throws E m p json bin e -> (calls_of e <= List.length json + 2)%nat.
Proof. exact (json_calls E m throws p json bin e). Qed.
Print Assumptions C63_json_calls.
(** ... and not more than two tokens of the text between two calls. *)
Theorem C63_json_read E m throws p json bin e : json_to_bin_with throws E m p json bin e ->
  match e with
  | Stopped c k => exists s, c = JLoop s /\ (List.length (toks (open_json json)) - List.length (toks (j_in s)) <= 2 * (k + 1))%nat
  | Ended (Ok _) k => (List.length (toks (open_json json)) <= 2 * (k + 1))%nat
  | _ => True
  end.
Proof. intros W. apply json_reads in W. destruct e as [[]|c k]; try exact W. destruct W as (s & -> & H). exists s. split; [reflexivity|]. unfold left_in in H. lia. Qed.
Print Assumptions C63_json_read.
(** Bytes to JSON: the text written grows with the calls, whatever the definitions: between two calls not more than
    a name and a value. So a callback which throws at some point bounds the memory of the conversion, also of one
    whose result would be huge (C61_bin_to_json_refuted). *)
Theorem C63_bin_written E m throws p bin e L t : small bin -> names_up_to L m -> bin_to_json_with throws E m p bin e -> written e = Some t ->
  Z.of_nat (List.length t) <= (6 * Z.of_nat L + 8) * (Z.of_nat (calls_of e) + 1) + 110 * Z.of_nat (List.length bin).
Proof. intros Sm N W T. exact (bin_writes throws E m p bin e L t Sm N W T). Qed.
Print Assumptions C63_bin_written.
(** And the calls are paid for with text. *)
Theorem C63_bin_calls E m throws p bin e F t : fields_up_to F m -> bin_to_json_with throws E m p bin e -> written e = Some t ->
  Z.of_nat (calls_of e) <= (Z.of_nat F + 1) * Z.of_nat (List.length t).
Proof. intros N W T. pose proof (bin_calls throws E m p bin e F t N W T). lia. Qed.
Print Assumptions C63_bin_calls.

(** ** What it cannot rely on: the reorderable conversion builds its whole document before the first call *)
(** There is a call for every item of an outermost array, ... *)
Theorem C63_reorderable_items E m throws p q json l bin r k : afind p m = Some (AArray q) -> json_to_jvalue json = Ok (JArr l) ->
  json_to_bin_reorderable_with throws E m p json bin (Ended (Ok r) k) -> (List.length l <= k)%nat.
Proof. intros A J W. unfold json_to_bin_reorderable_with in W. rewrite J in W. exact (reorderable_items E m throws p q l bin r k A W). Qed.
Print Assumptions C63_reorderable_items.
(** ... but none for what the type does not mention. *)
Definition padding (n : nat) : jv := JObj [(str "x", JArr (repeat JNull n))].
Lemma padding_len n : (n <= List.length (print (padding n)))%nat.
Proof.
  unfold padding. cbn [print map fst snd sep_concat]. rewrite !app_length. cbn [List.length].
  assert (X : (n <= List.length (sep_concat (map print (repeat JNull n))))%nat); [|lia].
  induction n as [|n IH]; [cbn; lia|]. cbn [repeat map]. destruct (map print (repeat JNull n)) as [|y l]; [cbn in *; lia|].
  change (sep_concat (print JNull :: y :: l)) with (print JNull ++ [44] ++ sep_concat (y :: l)). generalize dependent (sep_concat (y :: l)). intros z IH. rewrite !app_length. cbn [List.length]. lia.
Qed.
Lemma padding_height n : (height (padding n) <= 3)%nat.
Proof. unfold padding. cbn [height fold_right snd]. assert (X : (fold_right (fun x n => Nat.max (height x) n) 0 (repeat JNull n) <= 1)%nat); [|lia]. induction n as [|n IH]; [cbn; lia|]. cbn [repeat fold_right height]. lia. Qed.
Lemma padding_read n : json_to_jvalue (print (padding n)) = Ok (norm (padding n)).
Proof.
  assert (T : tokenize (print (padding n)) = (tokens (padding n), None)).
  { apply (tokenize_complete false). apply print_text_utf8.
    - constructor. constructor; [|constructor]. cbn [fst snd]. split; [apply bytes_okb_spec; reflexivity|]. constructor. apply Forall_forall. intros x Hx. apply repeat_spec in Hx. subst x. constructor.
    - constructor. constructor; [|constructor]. cbn [fst snd]. split; [apply utf8_of_ascii, asciib_spec; reflexivity|]. constructor. apply Forall_forall. intros x Hx. apply repeat_spec in Hx. subst x. constructor. }
  rewrite (json_to_jvalue_spec _ _ T). pose proof (padding_height n). destruct (Nat.leb_spec (height (padding n)) max_stack_size); [reflexivity|]. unfold max_stack_size in *. lia.
Qed.
Theorem C63_reorderable_calls_refuted E : exists m, loaded empty_abi (str "e[]") (str "e[]") m /\
  forall n, exists text, (n <= List.length text)%nat /\
    forall throws e, json_to_bin_reorderable_with throws E m (str "e") text [] e <-> e = Ended (Ok []) 0.
Proof.
  destruct (load_check_spec _ _ _ empty_items_loaded) as (m & L & C). apply andb_prop in C as [C C3]. apply andb_prop in C as [C1 C2]. apply struct_is_eq in C2.
  exists m. split; [exact L|]. intros n. exists (print (padding n)). split; [apply padding_len|]. intros throws e.
  unfold json_to_bin_reorderable_with. rewrite padding_read.
  assert (S1 : rstep E m (RCall true (str "e") (norm (padding n)) (RSt [] [] false)) = Ok (inl (RLoop (RSt [] [] false)))).
  { unfold padding. rewrite norm_obj. generalize (build [(str "x", JArr (repeat JNull n))] []). intros o. unfold rstep, rcall, deref. rewrite C2. reflexivity. }
  assert (X : exec (rstep E m) (RCall true (str "e") (norm (padding n)) (RSt [] [] false)) (Ok [])) by (eapply exec_step; [exact S1|]; apply exec_done; reflexivity).
  split.
  - intros W. inversion W as [a b Hc Ht|a b s' e' Hc Hs W'|a b y Hc Hy|a b y Hc Hy|a b y Hc Hy]; subst; try congruence; [discriminate Hc|].
    assert (s' = RLoop (RSt [] [] false)) by congruence. subst s'. cbn [rcalling] in W'. inversion W' as [a b Hc' Ht|a b s' e2 Hc' Hs' W2|a b y Hc' Hy|a b y Hc' Hy|a b y Hc' Hy]; subst; try discriminate.
    cbn [rstep r_stack r_out] in Hy. assert (y = []) by congruence. subst y. reflexivity.
  - intros ->. eapply watched_step; [discriminate|exact S1|]. cbn [rcalling].
    change (Ended (Ok []) 0) with (@Ended rconfig bytes (Ok []) (if rcalling (RLoop (RSt [] [] false)) then 1%nat else 0%nat)). apply watched_done; [discriminate|reflexivity].
Qed.
Print Assumptions C63_reorderable_calls_refuted.

(** ** The hypotheses are met, and an instance: a conversion of no bytes at all which would write 14 terabytes is stopped
    by a callback which throws at its [k]-th call, with at most 56 bytes for every call made *)
Definition fieldsb (n : nat) (m : amap) : bool := forallb (fun e => match snd e with AStruct fs => Nat.leb (List.length fs) n | _ => true end) m.
Lemma fieldsb_spec n m : fieldsb n m = true -> fields_up_to n m.
Proof. intros H p fs Hp. unfold fieldsb in H. rewrite forallb_forall in H. apply afind_In in Hp. apply Nat.leb_le. exact (H _ Hp). Qed.
Lemma bomb40_loaded : load_check (bomb_abi 40) (bomb_name 40) (fun m => trailingb m && structs_ok bomb_fields 40 m && namesb 8 m && fieldsb 2 m) = true.
Proof. vm_compute. reflexivity. Qed.
Lemma stopped_at E m p bin text k : bin_to_json E m p bin (Ok (text, [])) -> small bin -> names_up_to 8 m ->
  56 * (Z.of_nat k + 1) + 110 * Z.of_nat (List.length bin) < Z.of_nat (List.length text) ->
  exists s, bin_to_json_with (Nat.eqb k) E m p bin (Stopped s k) /\ Z.of_nat (List.length (b_out s)) <= 56 * (Z.of_nat k + 1) + 110 * Z.of_nat (List.length bin).
Proof.
  intros R Sm N Lo. destruct (C63_bin_to_json E m p bin _ R) as (calls & H).
  assert (X : bin_to_json_with (fun _ => false) E m p bin (Ended (Ok (text, [])) (List.length calls))) by (apply H; left; auto).
  pose proof (C63_bin_written E m _ p bin _ 8 text Sm N X eq_refl) as B. cbn [calls_of] in B.
  assert (K : (k < List.length calls)%nat) by lia. destruct (nth_error calls k) as [s|] eqn:Es; [|apply nth_error_None in Es; lia]. exists s.
  assert (Y : bin_to_json_with (Nat.eqb k) E m p bin (Stopped s k)).
  { apply H. right. exists k, s. split; [exact Es|]. split; [apply Nat.eqb_refl|]. split; [|reflexivity]. intros j Hj. apply Nat.eqb_neq. lia. }
  split; [exact Y|]. pose proof (C63_bin_written E m _ p bin _ 8 (b_out s) Sm N Y eq_refl) as B2. cbn [calls_of] in B2. lia.
Qed.
Theorem C63_bomb_stopped E : exists m text, loaded (bomb_abi 40) (bomb_name 40) (bomb_name 40) m /\ names_up_to 8 m /\ fields_up_to 2 m /\
  bin_to_json E m (bomb_name 40) [] (Ok (text, [])) /\ Z.of_nat (List.length text) = 13 * 2 ^ 40 - 11 /\
  forall k, Z.of_nat k < 2 ^ 37 -> exists s, bin_to_json_with (Nat.eqb k) E m (bomb_name 40) [] (Stopped s k) /\ Z.of_nat (List.length (b_out s)) <= 56 * (Z.of_nat k + 1).
Proof.
  destruct (load_check_spec _ _ _ bomb40_loaded) as (m & L & C). apply andb_prop in C as [C C4]. apply andb_prop in C as [C C3]. apply andb_prop in C as [C1 C2].
  pose proof (structs_ok_spec _ _ _ C2) as ST. apply namesb_spec in C3. apply fieldsb_spec in C4. assert (Small : small []) by (split; [constructor|cbn; lia]).
  assert (N40 : (40 <= 127)%nat) by (apply Nat.leb_le; reflexivity).
  destruct (bomb_run E _ _ m 40 L (trailingb_spec _ C1) N40 ST) as (text & R & Lo). exists m, text. split; [exact L|]. split; [exact C3|]. split; [exact C4|]. split; [exact R|].
  change (Z.of_nat 40) with 40 in Lo. split; [exact Lo|].
  generalize dependent (bomb_name 40). intros p L R. intros k Hk. destruct (stopped_at E m p [] text k R Small C3) as (s & W & B).
  - rewrite Lo. cbn [List.length]. lia.
  - exists s. split; [exact W|]. cbn [List.length] in B. lia.
Qed.
Print Assumptions C63_bomb_stopped.
(** Instances for the other direction: e {}; an array of two of them, with a callback which never throws and with one which throws the second time. *)
Definition two_table : amap := [(str "e", AStruct []); (str "e[]", AArray (str "e"))].
Ltac runs := repeat (eapply watched_step; [intros; reflexivity|cbv; reflexivity|cbn [jcalling rcalling j_stack r_stack]]).
Ltac over := match goal with |- watched ?st ?c ?t ?n ?s (Ended (Ok ?r) _) => exact (watched_done st c t n s r (fun _ => eq_refl) eq_refl) end.
Example C63_json_example E :
  json_to_bin_with (fun _ => false) E two_table (str "e[]") (str "[{},{}]") [] (Ended (Ok [2]) 3) /\
  exists s, json_to_bin_with (Nat.eqb 1) E two_table (str "e[]") (str "[{},{}]") [] (Stopped (JLoop s) 1).
Proof.
  split.
  - unfold json_to_bin_with. runs. over.
  - eexists. unfold json_to_bin_with. do 3 (eapply watched_step; [first [discriminate | intros; reflexivity]|cbv; reflexivity|cbn [jcalling rcalling j_stack r_stack]]). apply watched_throw; reflexivity.
Qed.
Example C63_reorderable_example E :
  json_to_jvalue (str "[{},{}]") = Ok (JArr [JObj []; JObj []]) /\
  json_to_bin_reorderable_with (fun _ => false) E two_table (str "e[]") (str "[{},{}]") [] (Ended (Ok [2]) 2).
Proof.
  split; [reflexivity|]. unfold json_to_bin_reorderable_with. change (json_to_jvalue _) with (@Ok jv (JArr [JObj []; JObj []])). cbv iota. runs. over.
Qed.
