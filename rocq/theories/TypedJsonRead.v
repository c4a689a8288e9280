(** * TypedJsonRead: the native JSON reader (proofs for C41) *)
From Verif Require Import Base TypedBin Json JsonSpec Abi AbiScalar AbiRead AbiReadBack AbiJsonFacts AbiJsonText TypedJson TypedJsonSpec TypedJsonFacts.

(** ** Skipping a value *)
Definition tsize (j : jv) : Z := Z.of_nat (List.length (tokens j)).
Lemma skip_tokens : forall j te d r, 0 <= d -> d + tsize j < 2 ^ 64 ->
  skip_value (tokens j ++ r) te d = if d =? 0 then Ok (JS r te) else skip_value r te d.
Proof.
  unfold tsize.
  induction j as [| b | s | t | l IH | l IH] using JsonPrint.jv_ind'; intros te d r Hd Hs; cbn [tokens app skip_value];
    try (destruct (d =? 0); reflexivity).
  - cbn [tokens List.length] in Hs. rewrite app_length in Hs. cbn [List.length] in Hs.
    replace ((d + 1) mod 2 ^ 64) with (d + 1) by (rewrite Z.mod_small; lia).
    replace (d + 1 =? 0) with false by lia. rewrite <- app_assoc.
    assert (G : forall l2, Forall (fun j => forall te d r, 0 <= d -> d + Z.of_nat (List.length (tokens j)) < 2 ^ 64 ->
               skip_value (tokens j ++ r) te d = if d =? 0 then Ok (JS r te) else skip_value r te d) l2 ->
               forall r, d + 1 + Z.of_nat (List.length (concat (map tokens l2))) < 2 ^ 64 ->
               skip_value (concat (map tokens l2) ++ r) te (d + 1) = skip_value r te (d + 1)).
    { clear - Hd. induction l2 as [|x l2 IHl]; intros F r H; [reflexivity|]. apply Forall_cons_iff in F as [F1 F]. cbn [map concat] in *.
      rewrite app_length in H. rewrite <- app_assoc. rewrite F1 by lia. replace (d + 1 =? 0) with false by lia. apply IHl; auto. lia. }
    rewrite G; [|exact IH|lia]. cbn [app skip_value]. replace (d + 1 - 1) with d by lia. rewrite Z.mod_small by lia. reflexivity.
  - cbn [tokens List.length] in Hs. rewrite app_length in Hs. cbn [List.length] in Hs.
    replace ((d + 1) mod 2 ^ 64) with (d + 1) by (rewrite Z.mod_small; lia).
    replace (d + 1 =? 0) with false by lia. rewrite <- app_assoc.
    assert (G : forall l2, Forall (fun x => forall te d r, 0 <= d -> d + Z.of_nat (List.length (tokens (snd x))) < 2 ^ 64 ->
               skip_value (tokens (snd x) ++ r) te d = if d =? 0 then Ok (JS r te) else skip_value r te d) l2 ->
               forall r, d + 1 + Z.of_nat (List.length (concat (map (fun kv : bytes * jv => TkKey (fst kv) :: tokens (snd kv)) l2))) < 2 ^ 64 ->
               skip_value (concat (map (fun kv : bytes * jv => TkKey (fst kv) :: tokens (snd kv)) l2) ++ r) te (d + 1) = skip_value r te (d + 1)).
    { clear - Hd. induction l2 as [|x l2 IHl]; intros F r H; [reflexivity|]. apply Forall_cons_iff in F as [F1 F]. cbn [map concat] in *.
      rewrite app_length in H. cbn [List.length] in H. rewrite <- app_assoc. cbn [app skip_value]. replace (d + 1 =? 0) with false by lia.
      rewrite F1 by lia. replace (d + 1 =? 0) with false by lia. apply IHl; auto. lia. }
    rewrite G; [|exact IH|lia]. cbn [app skip_value]. replace (d + 1 - 1) with d by lia. rewrite Z.mod_small by lia. reflexivity.
Qed.

(** ** Progress *)
Definition left_of (s : jstream) : nat := List.length (toks s).
Lemma skip_progress : forall ts te d s, ts <> [] -> skip_value ts te d = Ok s -> (left_of s < List.length ts)%nat.
Proof.
  induction ts as [|t ts IH]; intros te d s Hn H; [congruence|]. cbn [skip_value] in H. unfold left_of in *. cbn [List.length]. cbv zeta in H.
  destruct (_ =? 0) in H; [assert (s = JS ts te) by congruence; subst s; cbn [toks]; lia|].
  destruct ts as [|t' ts]; [cbn [skip_value] in H|specialize (IH te _ s ltac:(discriminate) H); lia].
  destruct te; [discriminate|]. destruct (_ =? 0) in H; [|discriminate]. assert (s = JS [] None) by congruence. subst s. cbn. lia.
Qed.
Ltac eat H s := let t := fresh "tk" in let ts := fresh "ts" in let te := fresh "te" in
  destruct s as [[|t ts] te]; cbn [toks] in H; [destruct te; discriminate|destruct t; try discriminate H].

Lemma get_string_len s x s' : get_string s = Ok (x, s') -> left_of s = S (left_of s').
Proof. unfold get_string, peek_token. intros H. eat H s. cbn [bind] in H. injection H as <- <-. reflexivity. Qed.
Lemma get_bool_len s x s' : get_bool s = Ok (x, s') -> left_of s = S (left_of s').
Proof. unfold get_bool, peek_token. intros H. eat H s. cbn [bind] in H. injection H as <- <-. reflexivity. Qed.
Lemma get_key_len s x s' : get_key s = Ok (x, s') -> left_of s = S (left_of s').
Proof. unfold get_key, peek_token. intros H. eat H s. cbn [bind] in H. injection H as <- <-. reflexivity. Qed.
Lemma get_start_array_len s s' : get_start_array s = Ok s' -> left_of s = S (left_of s').
Proof. unfold get_start_array, peek_token. intros H. eat H s. cbn [bind] in H. injection H as <-. reflexivity. Qed.
Lemma get_start_object_len s s' : get_start_object s = Ok s' -> left_of s = S (left_of s').
Proof. unfold get_start_object, peek_token. intros H. eat H s. cbn [bind] in H. injection H as <-. reflexivity. Qed.
Lemma get_end_object_len s s' : get_end_object s = Ok s' -> left_of s = S (left_of s').
Proof. unfold get_end_object, peek_token. intros H. eat H s. cbn [bind] in H. injection H as <-. reflexivity. Qed.
Lemma get_end_array_len s s' : get_end_array s = Ok s' -> left_of s = S (left_of s').
Proof.
  unfold get_end_array, get_end_array_pred, peek_token. intros H. destruct s as [[|[] ts] te]; cbn in H; try discriminate; [destruct te; discriminate|].
  injection H as <-. reflexivity.
Qed.
Lemma get_null_len s b s' : get_null_pred s = Ok (b, s') -> left_of s = (if b then S (left_of s') else left_of s') /\ (b = false -> s' = s).
Proof.
  unfold get_null_pred, peek_token. intros H. destruct s as [[|[] ts] te]; cbn in H; try (destruct te; [discriminate|]);
    injection H as <- <-; split; try reflexivity; intros; try discriminate; auto.
Qed.
Definition progresses (f : jstream -> res (val * jstream)) : Prop := forall s v s', f s = Ok (v, s') -> (left_of s' < left_of s)%nat.
Lemma read_items_len f : progresses f -> forall fuel acc s l s', read_items f fuel acc s = Ok (l, s') -> (left_of s' <= left_of s)%nat.
Proof.
  intros P. induction fuel as [|fuel IH]; intros acc s l s' H; cbn [read_items] in H; [discriminate|].
  apply bind_Ok in H as (t & _ & H). destruct t as [[]|]; try (assert (s' = s) by congruence; subst; lia);
    apply bind_Ok in H as ([v s1] & H1 & H); apply P in H1; apply IH in H; lia.
Qed.
Lemma find_named_In {A} k (l : list (bytes * A)) : forall i p, find_named k l i = Some p -> In (k, snd p) l.
Proof.
  induction l as [|[n a] l IH]; intros i p H; cbn [find_named] in H; [discriminate|]. destruct (beq k n) eqn:B.
  - apply beq_eq in B. subst n. injection H as <-. left. reflexivity.
  - right. eauto.
Qed.
Lemma read_members_len ps : Forall (fun p => forall cur, progresses (snd p cur)) ps ->
  forall fuel l s l' s', read_members ps fuel l s = Ok (l', s') -> (left_of s' <= left_of s)%nat.
Proof.
  intros P. induction fuel as [|fuel IH]; intros l s l' s' H; cbn [read_members] in H; [discriminate|].
  apply bind_Ok in H as (t & _ & H).
  assert (K : (let* (k, s0) := get_key s in
       match find_named k ps 0 with
       | Some (i, f) => match nthz l i with Some cur => let* (v, s1) := f cur s0 in read_members ps fuel (set_nth l (Z.to_nat i) v) s1 | None => ill end
       | None => let* s1 := from_json_skip_value s0 in read_members ps fuel l s1
       end) = Ok (l', s') -> (left_of s' <= left_of s)%nat).
  { clear H. intros H. apply bind_Ok in H as ([k s1] & Hk & H). apply get_key_len in Hk.
    destruct (find_named k ps 0) as [[i f]|] eqn:F.
    - destruct (nthz l i) as [cur|]; [|discriminate]. apply bind_Ok in H as ([v s2] & H1 & H). apply IH in H.
      rewrite Forall_forall in P. apply find_named_In in F. specialize (P _ F cur _ _ _ H1). lia.
    - apply bind_Ok in H as (s2 & H1 & H). apply IH in H. unfold from_json_skip_value in H1.
      destruct s1 as [[|t1 ts1] te1]; cbn [toks jtail] in H1.
      + cbn [skip_value] in H1. destruct te1; [discriminate|]. cbn in H1. assert (s2 = JS [] None) by congruence. subst s2. unfold left_of in *. cbn [toks List.length] in *. lia.
      + apply skip_progress in H1; [|discriminate]. unfold left_of in *. cbn [toks] in *. lia. }
  destruct t as [[]|]; try (apply K; exact H). assert (s' = s) by congruence. subst. lia.
Qed.
Lemma from_json_progress E : forall t cur, progresses (from_json E t cur).
Proof.
  induction t as [b|t IH|t IH|ts IH|nm fs IH|a b IHa IHb|t IH| |t IH|names|k] using jty_ind'; intros cur s v s' H; try discriminate H.
  - assert (K : b <> B_bool -> (let* (x, s0) := get_string s in let* v0 := scalar_from_text E b x in Ok (v0, s0)) = Ok (v, s') -> (left_of s' < left_of s)%nat).
    { intros _ K. apply bind_Ok in K as ([x s1] & K1 & K). apply get_string_len in K1. apply bind_Ok in K as (v1 & _ & K). assert (s' = s1) by congruence. subst. lia. }
    destruct b; try (apply K; [discriminate|exact H]). cbn [from_json] in H. apply bind_Ok in H as ([x s1] & H1 & H). apply get_bool_len in H1.
    assert (s' = s1) by congruence. subst. lia.
  - cbn [from_json] in H. destruct cur as [| | | |l| |]; try discriminate.
    apply bind_Ok in H as (s1 & H1 & H). apply bind_Ok in H as ([l2 s2] & H2 & H). apply bind_Ok in H as (s3 & H3 & H).
    apply get_start_array_len in H1. apply read_items_len in H2; [|apply IH]. apply get_end_array_len in H3. assert (s' = s3) by congruence. subst. lia.
  - cbn [from_json] in H. apply bind_Ok in H as ([b s1] & H1 & H). apply get_null_len in H1 as [H1 _]. destruct b.
    + assert (s' = s1) by congruence. subst. lia.
    + apply bind_Ok in H as ([v2 s2] & H2 & H). apply IH in H2. assert (s' = s2) by congruence. subst. lia.
  - cbn [from_json] in H. apply bind_Ok in H as (s1 & H1 & H). apply bind_Ok in H as ([k s2] & H2 & H).
    apply get_start_array_len in H1. apply get_string_len in H2.
    destruct (find_named k _ 0) as [[i f]|] eqn:F; [|discriminate]. apply find_named_In in F. apply in_map_iff in F as (t & Ft & Hin).
    cbn [snd] in Ft. assert (f = from_json E t (jdefault t)) by congruence. subst f.
    apply bind_Ok in H as ([v3 s3] & H3 & H). rewrite Forall_forall in IH. apply (IH t Hin) in H3. apply bind_Ok in H as (s4 & H4 & H). apply get_end_array_len in H4.
    assert (s' = s4) by congruence. subst. lia.
  - cbn [from_json] in H. destruct cur as [| | | |l| |]; try discriminate.
    apply bind_Ok in H as (s1 & H1 & H). apply bind_Ok in H as ([l2 s2] & H2 & H). apply bind_Ok in H as (s3 & H3 & H).
    apply get_start_object_len in H1. apply get_end_object_len in H3. assert (s' = s3) by congruence. subst.
    apply read_members_len in H2; [lia|]. apply Forall_map. eapply Forall_impl; [|exact IH]. cbv beta. cbn [snd]. auto.
  - cbn [from_json] in H. eapply IH; eauto.
Qed.

(** ** Names *)
Lemma find_named_first {A} k (l : list (bytes * A)) : forall i0 i a, find_named k l i0 = Some (i, a) <->
  exists n, i = i0 + Z.of_nat n /\ first_named k l n a.
Proof.
  unfold first_named. induction l as [|[x b] l IH]; intros i0 i a; cbn [find_named].
  - split; [discriminate|]. intros (n & _ & H & _). destruct n; discriminate.
  - destruct (beq k x) eqn:B.
    + apply beq_eq in B. subst x. split.
      * intros H. exists 0%nat. assert (i = i0 /\ a = b) as [-> ->] by (split; congruence). split; [lia|]. split; [reflexivity|intros []].
      * intros (n & -> & H & Hn). destruct n as [|n]; [cbn [nth_error] in H; replace (i0 + Z.of_nat 0) with i0 by lia; congruence|].
        exfalso. apply Hn. cbn [firstn map fst]. now left.
    + rewrite IH. split; intros (n & Hi & H & Hn).
      * exists (S n). split; [lia|]. split; [exact H|]. cbn [firstn map fst]. intros [->|Q]; [rewrite beq_refl in B; discriminate|now apply Hn].
      * destruct n as [|n]; [cbn [nth_error] in H; assert (x = k) by congruence; subst; rewrite beq_refl in B; discriminate|].
        exists n. split; [lia|]. split; [exact H|]. intros Q. apply Hn. cbn [firstn map fst]. now right.
Qed.
Lemma find_named_none {A} k (l : list (bytes * A)) : forall i0, find_named k l i0 = None <-> ~ In k (map fst l).
Proof.
  induction l as [|[x b] l IH]; intros i0; cbn [find_named map fst].
  - split; [intros _ []|reflexivity].
  - destruct (beq k x) eqn:B.
    + apply beq_eq in B. subst x. split; [discriminate|]. intros H. exfalso. apply H. now left.
    + rewrite IH. split; [intros H [->|Q]; [rewrite beq_refl in B; discriminate|now apply H]|]. intros H Q. apply H. now right.
Qed.
Lemma first_named_map {A B} k (f : A -> B) (l : list (bytes * A)) n b :
  first_named k (map (fun p => (fst p, f (snd p))) l) n b <-> exists a, b = f a /\ first_named k l n a.
Proof.
  unfold first_named. rewrite firstn_map, map_map. cbn [fst]. rewrite nth_error_map. split.
  - intros [H Hn]. destruct (nth_error l n) as [[x a]|]; [|discriminate]. cbn [option_map fst snd] in H. assert (x = k /\ b = f a) as [-> ->] by (split; congruence).
    exists a. auto.
  - intros (a & -> & H & Hn). rewrite H. split; [reflexivity|exact Hn].
Qed.
Lemma nthz_nth {A} (l : list A) n : nthz l (Z.of_nat n) = nth_error l n.
Proof.
  revert n. induction l as [|x l IH]; intros n; cbn [nthz]; [destruct n; reflexivity|]. destruct n as [|n]; [reflexivity|].
  replace (Z.of_nat (S n) =? 0) with false by lia. replace (Z.of_nat (S n) - 1) with (Z.of_nat n) by lia. apply IH.
Qed.
Lemma variant_parsers E ts k : find_named k (map (fun t' => (type_name t', from_json E t' (jdefault t'))) ts) 0 =
  find_named k (map (fun p : bytes * jty => (fst p, (fun t' => from_json E t' (jdefault t')) (snd p))) (map (fun t => (type_name t, t)) ts)) 0.
Proof. now rewrite map_map. Qed.

(** ** Tokens of documents *)
Lemma tokens_head j : exists t ts, tokens j = t :: ts /\ t <> TkEndArray /\ t <> TkEndObject /\ (forall k, t <> TkKey k) /\ (t = TkNull <-> j = JNull).
Proof.
  destruct j; cbn [tokens]; eexists; eexists; (split; [reflexivity|]); repeat split; intros; try discriminate; auto.
Qed.
Lemma null_doc j rest te : get_null_pred (JS (tokens j ++ rest) te) = match j with JNull => Ok (true, JS rest te) | _ => Ok (false, JS (tokens j ++ rest) te) end.
Proof. destruct j; reflexivity. Qed.
Lemma string_doc j rest te x s : get_string (JS (tokens j ++ rest) te) = Ok (x, s) -> text_of j = Some x /\ s = JS rest te.
Proof. destruct j; intros H; try discriminate; cbn in H; injection H as <- <-; split; reflexivity. Qed.
Lemma string_token j x rest te : text_of j = Some x -> get_string (JS (tokens j ++ rest) te) = Ok (x, JS rest te).
Proof. destruct j; try discriminate; cbn [text_of]; intros H; injection H as ->; reflexivity. Qed.

Definition member_tokens (ms : list (bytes * jv)) : list token := concat (map (fun kv => TkKey (fst kv) :: tokens (snd kv)) ms).
Definition small (j : jv) : Prop := tsize j < 2 ^ 64.

(** ** What is described is read *)
Lemma read_items_nil f fuel acc rest te : read_items f (S fuel) acc (JS (TkEndArray :: rest) te) = Ok (acc, JS (TkEndArray :: rest) te).
Proof. reflexivity. Qed.
Lemma read_items_cons f fuel acc j rest te : read_items f (S fuel) acc (JS (tokens j ++ rest) te) =
  let* (v, s) := f (JS (tokens j ++ rest) te) in read_items f fuel (acc ++ [v]) s.
Proof.
  destruct (tokens_head j) as (t & ts & Q & N & _). rewrite Q. cbn [read_items app]. unfold peek_token at 1. cbn [toks bind]. destruct t; try reflexivity. congruence.
Qed.
Lemma read_members_nil ps fuel l rest te : read_members ps (S fuel) l (JS (TkEndObject :: rest) te) = Ok (l, JS (TkEndObject :: rest) te).
Proof. reflexivity. Qed.
Lemma read_members_cons ps fuel l k j rest te : read_members ps (S fuel) l (JS (TkKey k :: tokens j ++ rest) te) =
  match find_named k ps 0 with
  | Some (i, f) => match nthz l i with Some cur => let* (v, s) := f cur (JS (tokens j ++ rest) te) in read_members ps fuel (set_nth l (Z.to_nat i) v) s | None => ill end
  | None => let* s := from_json_skip_value (JS (tokens j ++ rest) te) in read_members ps fuel l s
  end.
Proof. reflexivity. Qed.

Lemma small_item j l : In j l -> (List.length (tokens j) <= List.length (concat (map tokens l)))%nat.
Proof. apply in_concat_len. Qed.
Lemma small_member k j l : In (k, j) l -> (List.length (tokens j) <= List.length (member_tokens l))%nat.
Proof.
  intros H. pose proof (in_concat_len (fun kv : bytes * jv => TkKey (fst kv) :: tokens (snd kv)) l (k, j) H) as Q. cbn [fst snd List.length] in Q.
  unfold member_tokens. lia.
Qed.
Lemma member_count ms : (List.length ms <= List.length (member_tokens ms))%nat.
Proof. unfold member_tokens. induction ms as [|m ms IH]; cbn [map concat List.length]; [lia|]. rewrite app_length. cbn [List.length]. lia. Qed.

Lemma start_array_run r te : get_start_array (JS (TkStartArray :: r) te) = Ok (JS r te).
Proof. reflexivity. Qed.
Lemma start_object_run r te : get_start_object (JS (TkStartObject :: r) te) = Ok (JS r te).
Proof. reflexivity. Qed.
Lemma end_array_run r te : get_end_array (JS (TkEndArray :: r) te) = Ok (JS r te).
Proof. reflexivity. Qed.
Lemma end_object_run r te : get_end_object (JS (TkEndObject :: r) te) = Ok (JS r te).
Proof. reflexivity. Qed.

Theorem reads_run E :
  (forall t cur j v, treads E t cur j v -> small j -> forall rest te, from_json E t cur (JS (tokens j ++ rest) te) = Ok (v, JS rest te)) /\
  (forall t js vs, treads_all E t js vs -> Forall small js -> forall fuel acc rest te, (List.length js < fuel)%nat ->
     read_items (from_json E t (jdefault t)) fuel acc (JS (concat (map tokens js) ++ TkEndArray :: rest) te) = Ok (acc ++ vs, JS (TkEndArray :: rest) te)) /\
  (forall fs l ms l', treads_members E fs l ms l' -> Forall (fun m => small (snd m)) ms -> forall fuel rest te, (List.length ms < fuel)%nat ->
     read_members (map (fun f => (fst f, from_json E (snd f))) fs) fuel l (JS (member_tokens ms ++ TkEndObject :: rest) te) = Ok (l', JS (TkEndObject :: rest) te)).
Proof.
  apply treads_mutind.
  - reflexivity.
  - intros b cur j x v Hb Hx Hv _ rest te. pose proof (string_token j x rest te Hx) as Q.
    destruct b; try congruence; cbn [from_json]; rewrite Q; cbn [bind]; rewrite Hv; reflexivity.
  - intros t l js vs _ IH Hs rest te. cbn [from_json tokens app]. rewrite start_array_run. cbn [bind].
    rewrite <- app_assoc. change ([TkEndArray] ++ rest) with (TkEndArray :: rest).
    rewrite IH.
    + cbn [bind]. reflexivity.
    + apply Forall_forall. intros j Hj. apply small_item in Hj. unfold small, tsize in *. cbn [tokens List.length] in Hs. rewrite app_length in Hs. lia.
    + unfold fuel_of. cbn [toks]. rewrite app_length. pose proof (items_tokens_len js). lia.
  - reflexivity.
  - intros t cur j v Hn _ IH Hs rest te. cbn [from_json]. rewrite null_doc. destruct j; try congruence; cbn [bind]; rewrite IH by exact Hs; reflexivity.
  - intros ts cur jk k i t j v Hk Hf _ IH Hs rest te. cbn [from_json tokens app map concat]. rewrite start_array_run. cbn [bind].
    rewrite app_nil_r. repeat rewrite <- app_assoc. rewrite (string_token jk k _ _ Hk). cbn [bind]. rewrite variant_parsers.
    assert (F : find_named k (map (fun p : bytes * jty => (fst p, (fun t' => from_json E t' (jdefault t')) (snd p))) (map (fun t => (type_name t, t)) ts)) 0 =
            Some (Z.of_nat i, from_json E t (jdefault t))).
    { apply find_named_first. exists i. split; [lia|]. apply (first_named_map k (fun t' => from_json E t' (jdefault t'))). exists t. auto. }
    rewrite F. rewrite IH; [reflexivity|]. unfold small, tsize in *. cbn [tokens map concat List.length] in Hs. rewrite !app_length in Hs. lia.
  - intros n fs l ms l' _ IH Hs rest te. cbn [from_json]. change (tokens (JObj ms)) with (TkStartObject :: member_tokens ms ++ [TkEndObject]). cbn [app].
    rewrite start_object_run. cbn [bind].
    rewrite <- app_assoc. change ([TkEndObject] ++ rest) with (TkEndObject :: rest). rewrite IH.
    + reflexivity.
    + apply Forall_forall. intros [k j] Hj. apply small_member in Hj. unfold small, tsize in *. change (tokens (JObj ms)) with (TkStartObject :: member_tokens ms ++ [TkEndObject]) in Hs.
      cbn [List.length snd] in *. rewrite app_length in Hs. lia.
    + unfold fuel_of. cbn [toks]. rewrite app_length. pose proof (member_count ms). lia.
  - intros t cur j v _ IH Hs rest te. cbn [from_json]. now apply IH.
  - intros t _ fuel acc rest te Hf. destruct fuel as [|fuel]; [cbn in Hf; lia|]. cbn [map concat app]. rewrite read_items_nil, app_nil_r. reflexivity.
  - intros t j js v vs _ IH1 _ IH2 Hs fuel acc rest te Hf. apply Forall_cons_iff in Hs as [S1 S2].
    destruct fuel as [|fuel]; [lia|]. cbn [map concat List.length] in *. rewrite <- app_assoc, read_items_cons, IH1 by exact S1. cbn [bind].
    rewrite IH2 by (auto; lia). now rewrite <- app_assoc.
  - intros fs l _ fuel rest te Hf. destruct fuel as [|fuel]; [cbn in Hf; lia|]. apply read_members_nil.
  - intros fs l k j ms i t cur v l' Hf Hc _ IH1 _ IH2 Hs fuel rest te Hl. apply Forall_cons_iff in Hs as [S1 S2]. cbn [snd] in S1.
    destruct fuel as [|fuel]; [lia|]. cbn [List.length] in Hl. unfold member_tokens. cbn [map concat fst snd]. fold (member_tokens ms).
    cbn [app]. rewrite <- app_assoc, read_members_cons.
    assert (F : find_named k (map (fun f => (fst f, from_json E (snd f))) fs) 0 = Some (Z.of_nat i, from_json E t)).
    { apply find_named_first. exists i. split; [lia|]. apply (first_named_map k (fun t' => from_json E t')). exists t. auto. }
    rewrite F, nthz_nth, Hc, IH1 by exact S1. cbn [bind]. rewrite Nat2Z.id. apply IH2; auto. lia.
  - intros fs l k j ms l' Hk _ IH Hs fuel rest te Hl. apply Forall_cons_iff in Hs as [S1 S2]. cbn [snd] in S1.
    destruct fuel as [|fuel]; [lia|]. cbn [List.length] in Hl. unfold member_tokens. cbn [map concat fst snd]. fold (member_tokens ms).
    cbn [app]. rewrite <- app_assoc, read_members_cons.
    assert (F : find_named k (map (fun f => (fst f, from_json E (snd f))) fs) 0 = None).
    { apply find_named_none. rewrite map_map. exact Hk. }
    rewrite F. unfold from_json_skip_value. cbn [toks jtail]. rewrite skip_tokens by (unfold small in S1; lia). cbn [Z.eqb bind].
    apply IH; auto. lia.
Qed.

(** ** What is read is described *)
Lemma from_json_close E : forall t cur c ts te v s, c = TkEndArray \/ c = TkEndObject -> from_json E t cur (JS (c :: ts) te) <> Ok (v, s).
Proof.
  induction t as [b|t IH|t IH|tys IH|nm fs IH|a b IHa IHb|t IH| |t IH|names|k] using jty_ind'; intros cur c ts te v s C H; try discriminate H.
  - destruct b, C as [->| ->]; discriminate H.
  - cbn [from_json] in H. destruct cur, C as [->| ->]; discriminate H.
  - cbn [from_json] in H. assert (Q : get_null_pred (JS (c :: ts) te) = Ok (false, JS (c :: ts) te)) by (destruct C as [->| ->]; reflexivity).
    rewrite Q in H. cbn [bind] in H. apply bind_Ok in H as ([v1 s1] & H & _). eapply IH; eauto.
  - cbn [from_json] in H. destruct C as [->| ->]; discriminate H.
  - cbn [from_json] in H. destruct cur, C as [->| ->]; discriminate H.
  - cbn [from_json] in H. eapply IH; eauto.
Qed.
Definition sound_at E t : Prop := forall cur j rest te v s, small j -> from_json E t cur (JS (tokens j ++ rest) te) = Ok (v, s) -> s = JS rest te /\ treads E t cur j v.
Lemma items_sound E t : sound_at E t -> forall js fuel acc rest te l s, Forall small js ->
  read_items (from_json E t (jdefault t)) fuel acc (JS (concat (map tokens js) ++ TkEndArray :: rest) te) = Ok (l, s) ->
  s = JS (TkEndArray :: rest) te /\ exists vs, l = acc ++ vs /\ treads_all E t js vs.
Proof.
  intros ST. induction js as [|j js IH]; intros fuel acc rest te l s Hs H; (destruct fuel as [|fuel]; [discriminate|]).
  - cbn [map concat app] in H. rewrite read_items_nil in H. assert (l = acc /\ s = JS (TkEndArray :: rest) te) as [-> ->] by (split; congruence).
    split; [reflexivity|]. exists []. split; [now rewrite app_nil_r|constructor].
  - apply Forall_cons_iff in Hs as [S1 S2]. cbn [map concat] in H. rewrite <- app_assoc, read_items_cons in H.
    apply bind_Ok in H as ([v s1] & H1 & H). apply ST in H1 as [-> R1]; [|exact S1].
    apply IH in H as (-> & vs & -> & R); [|exact S2]. split; [reflexivity|]. exists (v :: vs). split; [now rewrite <- app_assoc|now constructor].
Qed.
Lemma members_sound E fs : Forall (fun f => sound_at E (snd f)) fs -> forall ms fuel l rest te l' s, Forall (fun m => small (snd m)) ms ->
  read_members (map (fun f => (fst f, from_json E (snd f))) fs) fuel l (JS (member_tokens ms ++ TkEndObject :: rest) te) = Ok (l', s) ->
  s = JS (TkEndObject :: rest) te /\ treads_members E fs l ms l'.
Proof.
  intros ST. induction ms as [|[k j] ms IH]; intros fuel l rest te l' s Hs H; (destruct fuel as [|fuel]; [discriminate|]).
  - cbn [member_tokens map concat app] in H. change (member_tokens [] ++ TkEndObject :: rest) with (TkEndObject :: rest) in H. rewrite read_members_nil in H.
    assert (l' = l /\ s = JS (TkEndObject :: rest) te) as [-> ->] by (split; congruence). split; [reflexivity|constructor].
  - apply Forall_cons_iff in Hs as [S1 S2]. cbn [snd] in S1. unfold member_tokens in H. cbn [map concat fst snd] in H. fold (member_tokens ms) in H.
    cbn [app] in H. rewrite <- app_assoc, read_members_cons in H.
    destruct (find_named k _ 0) as [[i f]|] eqn:F.
    + apply find_named_first in F as (n & Hi & F). rewrite Z.add_0_l in Hi. subst i. apply (first_named_map k (fun t' => from_json E t')) in F as (t & -> & F).
      rewrite nthz_nth in H. destruct (nth_error l n) as [cur|] eqn:N; [|discriminate]. apply bind_Ok in H as ([v s1] & H1 & H).
      assert (St : sound_at E t). { rewrite Forall_forall in ST. destruct F as [F _]. apply nth_error_In in F. exact (ST _ F). }
      apply St in H1 as [-> R1]; [|exact S1]. rewrite Nat2Z.id in H. apply IH in H as [-> R]; [|exact S2]. split; [reflexivity|]. eapply R_known; eauto.
    + apply find_named_none in F. rewrite map_map in F. unfold from_json_skip_value in H. cbn [toks jtail] in H. rewrite skip_tokens in H by (unfold small in S1; lia).
      cbn [Z.eqb bind] in H. apply IH in H as [-> R]; [|exact S2]. split; [reflexivity|]. apply R_unknown; auto.
Qed.
Theorem run_reads E : forall t, sound_at E t.
Proof.
  induction t as [b|t IH|t IH|tys IH|nm fs IH|a b IHa IHb|t IH| |t IH|names|k] using jty_ind'; intros cur j rest te v s Hs H; try discriminate H.
  - assert (K : b <> B_bool -> (let* (x, s0) := get_string (JS (tokens j ++ rest) te) in let* v0 := scalar_from_text E b x in Ok (v0, s0)) = Ok (v, s) -> s = JS rest te /\ treads E (JScalar b) cur j v).
    { intros Hb K. apply bind_Ok in K as ([x s1] & K1 & K). apply string_doc in K1 as [Hx ->]. apply bind_Ok in K as (v1 & Hv & K).
      assert (v = v1 /\ s = JS rest te) as [-> ->] by (split; congruence). split; [reflexivity|]. eapply R_scalar; eauto. }
    destruct b; try (apply K; [discriminate|exact H]). cbn [from_json] in H. destruct j; try discriminate H. cbn in H.
    injection H as <- <-. split; [reflexivity|constructor].
  - cbn [from_json] in H. destruct cur as [| | | |l| |]; try discriminate H. destruct j as [| | | |js|]; try discriminate H.
    cbn [tokens app] in H. rewrite start_array_run in H. cbn [bind] in H.
    rewrite <- app_assoc in H. change ([TkEndArray] ++ rest) with (TkEndArray :: rest) in H.
    apply bind_Ok in H as ([l2 s2] & H2 & H). apply (items_sound E t IH) in H2 as (-> & vs & -> & R).
    + cbn in H. injection H as <- <-. split; [reflexivity|]. now constructor.
    + apply Forall_forall. intros j Hj. apply small_item in Hj. unfold small, tsize in *. cbn [tokens List.length] in Hs. rewrite app_length in Hs. lia.
  - cbn [from_json] in H. rewrite null_doc in H. destruct j; try (cbn [bind] in H; apply bind_Ok in H as ([v1 s1] & H1 & H); apply IH in H1 as [-> R]; [|exact Hs];
      assert (v = VOpt (Some v1) /\ s = JS rest te) as [-> ->] by (split; congruence); split; [reflexivity|]; apply R_some; [discriminate|exact R]).
    cbn [bind] in H. assert (v = VOpt None /\ s = JS rest te) as [-> ->] by (split; congruence). split; [reflexivity|constructor].
  - cbn [from_json] in H. destruct j as [| | | |js|]; try discriminate H.
    cbn [tokens app] in H. rewrite start_array_run in H. cbn [bind] in H.
    rewrite <- app_assoc in H. destruct js as [|jk js]; [discriminate H|]. cbn [map concat] in H. rewrite <- app_assoc in H.
    apply bind_Ok in H as ([k s1] & H1 & H). apply string_doc in H1 as [Hk ->]. rewrite variant_parsers in H.
    destruct (find_named k _ 0) as [[i f]|] eqn:F; [|discriminate].
    apply find_named_first in F as (n & Hi & F). rewrite Z.add_0_l in Hi. subst i. apply (first_named_map k (fun t' => from_json E t' (jdefault t'))) in F as (t & -> & F).
    assert (St : sound_at E t). { rewrite Forall_forall in IH. destruct F as [F _]. apply nth_error_In in F. apply in_map_iff in F as (t0 & F0 & F). assert (t0 = t) by congruence. subst t0. exact (IH _ F). }
    apply bind_Ok in H as ([v2 s2] & H2 & H).
    destruct js as [|j js]; [cbn [map concat app] in H2; exfalso; eapply from_json_close; [|exact H2]; auto|].
    assert (Sj : small j). { unfold small, tsize in *. cbn [tokens map concat List.length] in Hs. rewrite !app_length in Hs. lia. }
    cbn [map concat] in H2. rewrite <- app_assoc in H2. apply St in H2 as [-> R]; [|exact Sj].
    destruct js as [|j2 js].
    + cbn in H. injection H as <- <-. split; [reflexivity|]. eapply R_variant; eauto.
    + exfalso. apply bind_Ok in H as (s3 & H3 & _). cbn [map concat] in H3. rewrite <- app_assoc in H3. destruct (tokens_head j2) as (tk & tks & Q & N & _). rewrite Q in H3.
      cbn [app] in H3. unfold get_end_array, get_end_array_pred, peek_token in H3. cbn [toks bind] in H3. destruct tk; try discriminate H3. congruence.
  - cbn [from_json] in H. destruct cur as [| | | |l| |]; try discriminate H. destruct j as [| | | | |ms]; try discriminate H.
    change (tokens (JObj ms)) with (TkStartObject :: member_tokens ms ++ [TkEndObject]) in H. cbn [app] in H.
    rewrite start_object_run in H. cbn [bind] in H.
    rewrite <- app_assoc in H. change ([TkEndObject] ++ rest) with (TkEndObject :: rest) in H.
    apply bind_Ok in H as ([l2 s2] & H2 & H). apply (members_sound E fs IH) in H2 as [-> R].
    + cbn in H. injection H as <- <-. split; [reflexivity|]. now constructor.
    + apply Forall_forall. intros [k j] Hj. apply small_member in Hj. unfold small, tsize in *. change (tokens (JObj ms)) with (TkStartObject :: member_tokens ms ++ [TkEndObject]) in Hs.
      cbn [List.length snd] in *. rewrite app_length in Hs. lia.
  - cbn [from_json] in H. apply IH in H as [-> R]; [|exact Hs]. split; [reflexivity|]. now constructor.
Qed.
