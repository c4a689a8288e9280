(** * Tokens of any text, malformed or not (proofs only)

    Every text gives tokens no longer than itself; the tokens of a malformed text are a
    proper prefix of the tokens of some document. *)
From Verif Require Import Base Utf8 Json JsonSpec JsonStrFacts JsonFacts JsonSound JsonPrint Keys KeysFacts AbiScalar AbiScalarFacts AbiRead AbiJson AbiJsonFacts AbiJsonSound.

(** ** Sizes *)
Lemma utf8_enc_len cp : (List.length (utf8_enc cp) <= 4)%nat.
Proof. unfold utf8_enc. repeat match goal with |- context [if ?b then _ else _] => destruct b end; cbn [List.length]; lia. Qed.
Lemma hex4_len u h : hex4 u h -> List.length h = 4%nat.
Proof. intros (a & b & c & d & va & vb & vc & vd & -> & _). reflexivity. Qed.
Lemma string_text_len lax s t : string_text lax s t -> (List.length s <= List.length t)%nat.
Proof.
  induction 1; cbn [List.length app]; rewrite ?app_length; cbn [List.length];
    repeat match goal with H : hex4 _ _ |- _ => apply hex4_len in H end;
    try (pose proof (utf8_enc_len cp)); try (pose proof (utf8_enc_len u));
    rewrite ?app_length; cbn [List.length];
    try (pose proof (utf8_enc_len (65536 + (u1 - 55296) * 1024 + (u2 - 56320)))); try lia.
Qed.
Lemma short_escape_byte e v : short_escape e v -> is_byte v.
Proof.
  unfold short_escape, is_byte. cbn [In]. intros H.
  repeat (destruct H as [H|H]; [apply pair_equal_spec in H as [_ <-]; lia|]). destruct H.
Qed.
Lemma utf8_enc_bytes cp : 0 <= cp < 1114112 -> bytes_ok (utf8_enc cp).
Proof.
  intros H. unfold utf8_enc.
  repeat match goal with |- context [if ?b then _ else _] => destruct b eqn:? end;
    repeat (constructor; [unfold is_byte|]); try constructor; unfold is_byte in *; lia.
Qed.
Lemma hexdigit_range c v : hexdigit c v -> 0 <= v < 16. Proof. unfold hexdigit. lia. Qed.
Lemma hex4_range u h : hex4 u h -> 0 <= u < 65536.
Proof.
  intros (a & b & c & d & va & vb & vc & vd & -> & Ha & Hb & Hc & Hd & ->).
  apply hexdigit_range in Ha, Hb, Hc, Hd. lia.
Qed.
Lemma string_text_bytes lax s t : string_text lax s t -> bytes_ok s.
Proof.
  induction 1; try (apply bytes_ok_app; split; auto).
  - constructor.
  - apply utf8_enc_bytes. unfold scalar in *. lia.
  - constructor; auto. eapply short_escape_byte; eauto.
  - apply utf8_enc_bytes. unfold scalar in *. lia.
  - apply utf8_enc_bytes. lia.
  - apply utf8_enc_bytes. lia.
Qed.

Definition token_ok (t : token) : Prop := match t with TkString s | TkKey s => text_ok s | _ => True end.
Lemma string_text_ok lax s t : short t -> string_text lax s t -> text_ok s.
Proof.
  intros Ht H. split; [eapply string_text_bytes; eauto|]. apply string_text_len in H. unfold short in *. lia.
Qed.

Lemma value_token_ok lax j t tk : bytes_ok t -> short t -> value_text lax j t -> tokens j = [tk] -> token_ok tk.
Proof.
  intros Hb Hs H T. destruct H; cbn [tokens] in T; try discriminate T.
  1-3: assert (tk = TkNull \/ exists b, tk = TkBool b) as [->|[b ->]] by (solve [left; congruence|right; eexists; symmetry; injection T; eauto]); exact Logic.I.
  - assert (tk = TkString s) by congruence. subst tk. eapply string_text_ok; [|eassumption].
    unfold short in *. cbn [List.length] in Hs. rewrite app_length in Hs. lia.
  - assert (tk = TkString t) by congruence. subst tk. split; auto.
  - exfalso. apply (f_equal (@List.length _)) in T. cbn [List.length] in T. rewrite app_length in T. cbn [List.length] in T. lia.
  - exfalso. apply (f_equal (@List.length _)) in T. cbn [List.length] in T. rewrite app_length in T. cbn [List.length] in T. lia.
Qed.

Lemma skip_ws_ok b : bytes_ok b -> bytes_ok (skip_ws b).
Proof. destruct (skip_ws_split b) as (w & _ & E & _). intros H. rewrite E in H. apply bytes_ok_app in H. tauto. Qed.

Lemma step_tokens st stk b st' stk' tk r : bytes_ok b -> short b -> step st stk b = Ok (st', stk', tk, r) ->
  bytes_ok r /\ short r /\ match tk with Some t => token_ok t | None => True end.
Proof.
  intros Hb Hs H. pose proof (step_len _ _ _ _ _ _ _ H) as L. apply step_inv in H; auto.
  assert (short r) by (unfold short in *; lia).
  inversion H; subst; try (inversion Hb as [|? ? ? Hb1]; subst; split; [exact Hb1|split; [assumption|exact Logic.I]]).
  - inversion Hb as [|? ? _ Hb']; subst. apply bytes_ok_app in Hb' as [? Hb']. inversion Hb'; subst.
    split; [assumption|]. split; [assumption|]. cbn [token_ok]. eapply string_text_ok; [|eassumption].
    unfold short in *. cbn [List.length] in Hs. rewrite app_length in Hs. lia.
  - apply bytes_ok_app in Hb as [? ?]. split; [assumption|]. split; [assumption|].
    eapply (value_token_ok _ j t); [assumption| |eassumption|assumption]. unfold short in *. rewrite app_length in Hs. lia.
Qed.

Lemma parse_tokens : forall f st stk b ts e, bytes_ok b -> short b -> parse f st stk b = (ts, e) ->
  Forall token_ok ts /\ (List.length ts <= List.length b)%nat.
Proof.
  induction f as [|f IH]; intros st stk b ts e Hb Hs H; cbn [parse] in H.
  { assert (ts = []) by congruence. subst. split; [constructor|cbn; lia]. }
  destruct b as [|c b]; [assert (ts = []) by congruence; subst; split; [constructor|cbn; lia]|].
  pose proof (skip_ws_len (c :: b)) as Lw.
  destruct (step st stk (skip_ws (c :: b))) as [[[[st' stk'] tk] r]|e'|w] eqn:Es.
  2,3: assert (ts = []) by congruence; subst; split; [constructor|cbn; lia].
  pose proof (step_len _ _ _ _ _ _ _ Es) as L.
  assert (short (skip_ws (c :: b))) as Sw by (unfold short in *; lia).
  destruct (step_tokens _ _ _ _ _ _ _ (skip_ws_ok _ Hb) Sw Es) as (Hr & Hsr & Ht).
  assert (N : forall rest, Forall token_ok rest -> (List.length rest <= List.length r)%nat ->
     Forall token_ok (match tk with Some t => t :: rest | None => rest end) /\
     (List.length (match tk with Some t => t :: rest | None => rest end) <= List.length (c :: b))%nat).
  { intros rest H1 H2. destruct tk; cbn [List.length] in *; (split; [try (constructor; [exact Ht|]); exact H1|lia]). }
  destruct st'; try (destruct (parse f _ stk' r) as [rest e1] eqn:Ep;
    assert (ts = match tk with Some t => t :: rest | None => rest end) by congruence; subst ts;
    apply IH in Ep as [? ?]; auto).
  destruct (skip_ws r).
  - assert (ts = match tk with Some t => [t] | None => [] end) by congruence. subst ts. apply N; [constructor|cbn; lia].
  - assert (ts = []) by congruence. subst. split; [constructor|cbn; lia].
Qed.

Lemma cstr_len b : (List.length (cstr b) <= List.length b)%nat.
Proof. induction b as [|c b IH]; cbn [cstr]; [lia|]. destruct (c =? 0); cbn [List.length]; lia. Qed.
Lemma tokenize_tokens t ts e : bytes_ok t -> short t -> tokenize t = (ts, e) ->
  Forall token_ok ts /\ (List.length ts <= List.length t)%nat.
Proof.
  intros Hb Hs H. unfold tokenize in H. pose proof (cstr_len t).
  apply parse_tokens in H as [H1 H2]; [|now apply cstr_ok|unfold short in *; lia]. split; [auto|lia].
Qed.

(** ** From tokens back to the document *)
Lemma tokens_nonempty j : (1 <= List.length (tokens j))%nat.
Proof. destruct j; cbn [tokens List.length]; lia. Qed.
Lemma items_tokens_len l : (List.length l <= List.length (concat (map tokens l)))%nat.
Proof.
  induction l as [|j l IH]; cbn [map concat List.length]; [lia|]. rewrite app_length. pose proof (tokens_nonempty j). lia.
Qed.
Lemma Forall_concat {A B} (P : B -> Prop) (f : A -> list B) l :
  Forall P (concat (map f l)) <-> Forall (fun x => Forall P (f x)) l.
Proof.
  induction l as [|x l IH]; cbn [map concat]; [split; constructor|].
  rewrite Forall_app, Forall_cons_iff, IH. tauto.
Qed.
Lemma tokens_texts j : Forall token_ok (tokens j) -> texts_ok j.
Proof.
  induction j as [|b|s|s|l IH|l IH] using jv_ind'; intros H.
  - constructor.
  - constructor.
  - inversion H; subst. constructor; auto.
  - inversion H; subst. constructor; auto.
  - constructor. change (tokens (JArr l)) with (TkStartArray :: concat (map tokens l) ++ [TkEndArray]) in H.
    rewrite Forall_cons_iff, Forall_app, Forall_concat in H. destruct H as (_ & H & _).
    rewrite Forall_forall in *. auto.
  - constructor. change (tokens (JObj l)) with (TkStartObject :: mtokens l ++ [TkEndObject]) in H.
    unfold mtokens in H. rewrite Forall_cons_iff, Forall_app, Forall_concat in H. destruct H as (_ & H & _).
    rewrite Forall_forall in *. intros x Hx. specialize (H x Hx). cbv beta in H. rewrite Forall_cons_iff in H. apply IH; tauto.
Qed.
Lemma in_concat_len {A B} (f : A -> list B) l x : In x l -> (List.length (f x) <= List.length (concat (map f l)))%nat.
Proof.
  induction l as [|y l IH]; intros H; [destruct H|]. cbn [map concat]. rewrite app_length.
  destruct H as [->|H]; [lia|]. apply IH in H. lia.
Qed.
Lemma tokens_arrays j : Z.of_nat (List.length (tokens j)) <= 2 ^ 31 -> arrays_ok j.
Proof.
  induction j as [|b|s|s|l IH|l IH] using jv_ind'; intros H; try constructor.
  - change (tokens (JArr l)) with (TkStartArray :: concat (map tokens l) ++ [TkEndArray]) in H.
    cbn [List.length] in H. rewrite app_length in H. pose proof (items_tokens_len l). lia.
  - rewrite Forall_forall in *. intros x Hx. apply IH; auto. pose proof (in_concat_len tokens l x Hx).
    change (tokens (JArr l)) with (TkStartArray :: concat (map tokens l) ++ [TkEndArray]) in H.
    cbn [List.length] in H. rewrite app_length in H. lia.
  - rewrite Forall_forall in *. intros x Hx. apply IH; auto.
    pose proof (in_concat_len (fun kv : bytes * jv => TkKey (fst kv) :: tokens (snd kv)) l x Hx) as L. cbn [List.length] in L.
    change (tokens (JObj l)) with (TkStartObject :: mtokens l ++ [TkEndObject]) in H. unfold mtokens in H.
    cbn [List.length] in H. rewrite app_length in H. lia.
Qed.

(** ** Malformed texts *)
(** Containers read so far, innermost first. *)
Inductive opened := OArr (done : list jv) | OObj (done : list (bytes * jv)) (key : option bytes).
Definition opened_tokens (o : opened) : list token :=
  match o with
  | OArr d => TkStartArray :: concat (map tokens d)
  | OObj d None => TkStartObject :: mtokens d
  | OObj d (Some k) => TkStartObject :: mtokens d ++ [TkKey k]
  end.
Fixpoint so_far (l : list opened) : list token :=
  match l with [] => [] | o :: l' => so_far l' ++ opened_tokens o end.
Definition add (j : jv) (l : list opened) : list opened :=
  match l with
  | OArr d :: l' => OArr (d ++ [j]) :: l'
  | OObj d (Some k) :: l' => OObj (d ++ [(k, j)]) None :: l'
  | _ => l
  end.
Definition closed (o : opened) : jv := match o with OArr d => JArr d | OObj d _ => JObj d end.

Definition waiting (st : pstate) (l : list opened) : Prop :=
  match l with
  | [] => st = PStart
  | OArr _ :: _ => st = PElem
  | OObj _ (Some _) :: _ => st = PMember
  | OObj _ None :: _ => False
  end.
Fixpoint under (stk : list pstate) (l : list opened) : Prop :=
  match stk, l with
  | [], [] => True
  | s :: stk', _ :: l' => waiting s l' /\ under stk' l'
  | _, _ => False
  end.
Definition top_ok (st : pstate) (l : list opened) : Prop :=
  match st, l with
  | PStart, [] => True
  | (PArrInit | PElem | PEComma), OArr _ :: _ => True
  | (PObjInit | PMember | PMComma), OObj _ None :: _ => True
  | (PKey | PColon), OObj _ (Some _) :: _ => True
  | _, _ => False
  end.
Definition holds (st : pstate) (stk : list pstate) (l : list opened) : Prop := top_ok st l /\ under stk l.

Lemma mtokens_app a b : mtokens (a ++ b) = mtokens a ++ mtokens b.
Proof. unfold mtokens. rewrite map_app, concat_app. reflexivity. Qed.
Lemma add_tokens j l st : waiting st l -> l <> [] -> so_far (add j l) = so_far l ++ tokens j.
Proof.
  destruct l as [|[d|d [k|]] l]; cbn [waiting]; intros H N; try congruence; try destruct H; cbn [add so_far opened_tokens].
  - rewrite map_app, concat_app. cbn [map concat]. rewrite app_nil_r, <- app_assoc. reflexivity.
  - rewrite mtokens_app. unfold mtokens at 2. cbn [map concat fst snd]. rewrite app_nil_r, <- app_assoc. cbn [app].
    rewrite <- app_assoc. reflexivity.
Qed.
Lemma add_holds j l st stk : waiting st l -> l <> [] -> under stk l -> holds st stk (add j l).
Proof.
  destruct l as [|[d|d [k|]] l]; cbn [waiting]; intros H N U; try congruence; try contradiction; subst st; cbn [add]; split;
    try exact Logic.I; destruct stk; exact U.
Qed.

(** Whatever has been read so far can be completed. *)
Definition closing (us : list token) : Prop := Forall token_ok us.
Lemma complete_waiting : forall l st stk, waiting st l -> under stk l ->
  forall j, exists j' us, tokens j' = so_far l ++ tokens j ++ us /\ closing us /\ List.length us = List.length l.
Proof.
  induction l as [|o l IH]; intros st stk W U j.
  - exists j, []. cbn [so_far]. rewrite app_nil_r. split; [reflexivity|]. split; [constructor|reflexivity].
  - destruct stk as [|s stk]; [destruct U|]. destruct U as [W' U].
    destruct o as [d|d [k|]]; cbn [waiting] in W; [| |destruct W].
    + destruct (IH s stk W' U (JArr (d ++ [j]))) as (j' & us & H & C & L). exists j', (TkEndArray :: us). rewrite H.
      cbn [so_far opened_tokens tokens]. rewrite map_app, concat_app. cbn [map concat]. rewrite app_nil_r.
      split; [repeat (rewrite <- ?app_assoc; cbn [app]); reflexivity|].
      split; [constructor; [exact Logic.I|exact C]|]. cbn [List.length]. lia.
    + destruct (IH s stk W' U (JObj (d ++ [(k, j)]))) as (j' & us & H & C & L). exists j', (TkEndObject :: us). rewrite H.
      cbn [so_far opened_tokens]. change (tokens (JObj (d ++ [(k, j)]))) with (TkStartObject :: mtokens (d ++ [(k, j)]) ++ [TkEndObject]).
      rewrite mtokens_app. unfold mtokens at 2. cbn [map concat fst snd]. rewrite app_nil_r.
      split; [repeat (rewrite <- ?app_assoc; cbn [app]); reflexivity|].
      split; [constructor; [exact Logic.I|exact C]|]. cbn [List.length]. lia.
Qed.
Definition completes (ts : list token) (j : jv) (us : list token) : Prop :=
  us <> [] /\ tokens j = ts ++ us /\ closing us /\ (List.length us <= 2 + List.length ts)%nat.
Lemma so_far_len l : (List.length l <= List.length (so_far l))%nat.
Proof.
  induction l as [|o l IH]; cbn [so_far List.length]; [lia|]. rewrite app_length.
  destruct o as [d|d [k|]]; cbn [opened_tokens List.length]; lia.
Qed.
Lemma complete st stk l : holds st stk l -> exists j us, completes (so_far l) j us.
Proof.
  intros [T U]. pose proof (so_far_len l) as Q.
  assert (W : forall st', waiting st' l -> exists j us, completes (so_far l) j us).
  { intros st' W. destruct (complete_waiting l st' stk W U JNull) as (j & us & H & C & L). exists j, (TkNull :: us).
    split; [discriminate|]. split; [exact H|]. split; [constructor; [exact Logic.I|exact C]|]. cbn [List.length]. lia. }
  destruct l as [|[d|d [k|]] l]; try (eapply W; reflexivity).
  destruct (complete_waiting (OObj d (Some []) :: l) PMember stk eq_refl) with (j := JNull) as (j & us & H & C & L).
  { destruct stk; exact U. }
  exists j, (TkKey [] :: TkNull :: us). split; [discriminate|]. split; [|split].
  - rewrite H. cbn [so_far opened_tokens tokens]. repeat (rewrite <- ?app_assoc; cbn [app]). reflexivity.
  - constructor; [split; [constructor|reflexivity]|]. constructor; [exact Logic.I|exact C].
  - cbn [List.length] in *. lia.
Qed.

Lemma consumed_holds st stk b st' stk' tk r l : holds st stk l -> consumed st stk b st' stk' tk r -> st' <> PFinish ->
  exists l', holds st' stk' l' /\ so_far l' = so_far l ++ match tk with Some t => [t] | None => [] end.
Proof.
  intros [T U] H NF. inversion H; subst; clear H.
  - exists (OArr [] :: l). split; [|reflexivity]. split; [exact Logic.I|]. cbn [under]. split; [|exact U].
    destruct st; try discriminate; destruct l as [|[d|d [k|]] l]; cbn [top_ok frame waiting] in *; auto; destruct T.
  - exists (OObj [] None :: l). split; [|reflexivity]. split; [exact Logic.I|]. cbn [under]. split; [|exact U].
    destruct st; try discriminate; destruct l as [|[d|d [k|]] l]; cbn [top_ok frame waiting] in *; auto; destruct T.
  - destruct l as [|o l]; [destruct U|]. destruct U as [W U].
    assert (N : l <> []) by (intros ->; cbn [waiting] in W; subst s; apply NF; reflexivity).
    assert (Es : unframe s = s) by (destruct l as [|[|? [|]] ?]; cbn [waiting] in W; subst; try reflexivity; [congruence|destruct W]).
    rewrite Es in *. exists (add (closed o) l). split; [now apply add_holds|].
    rewrite (add_tokens _ _ s W N). cbn [so_far]. rewrite <- app_assoc. f_equal.
    destruct o as [d|d [k|]]; match goal with H : st = _ \/ st = _ |- _ => destruct H as [->| ->] end; try (destruct T); reflexivity.
  - destruct l as [|o l]; [destruct U|]. destruct U as [W U].
    assert (N : l <> []) by (intros ->; cbn [waiting] in W; subst s; apply NF; reflexivity).
    assert (Es : unframe s = s) by (destruct l as [|[|? [|]] ?]; cbn [waiting] in W; subst; try reflexivity; [congruence|destruct W]).
    rewrite Es in *. exists (add (closed o) l). split; [now apply add_holds|].
    rewrite (add_tokens _ _ s W N). cbn [so_far]. rewrite <- app_assoc. f_equal.
    destruct o as [d|d [k|]]; match goal with H : st = _ \/ st = _ |- _ => destruct H as [->| ->] end; try (destruct T); reflexivity.
  - exists l. rewrite app_nil_r. split; [|reflexivity]. split; [|exact U].
    match goal with H : _ \/ _ |- _ => destruct H as [[-> ->]|[-> ->]] end; destruct l as [|[d|d [k|]] l]; exact T.
  - exists l. rewrite app_nil_r. split; [|reflexivity]. split; [|exact U]. destruct l as [|[d|d [k|]] l]; exact T.
  - destruct l as [|[d|d [k|]] l]; try (match goal with H : st = _ \/ st = _ |- _ => destruct H as [->| ->] end; destruct T; fail).
    exists (OObj d (Some s) :: l). split; [split; [exact Logic.I|destruct stk'; exact U]|].
    cbn [so_far opened_tokens]. rewrite <- app_assoc. reflexivity.
  - assert (W : waiting st' l /\ l <> []).
    { destruct st; try discriminate; destruct l as [|[d|d [k|]] l]; cbn [top_ok after waiting] in *; try (destruct T); try (split; congruence). }
    destruct W as [W N]. exists (add j l). split; [now apply add_holds|]. rewrite (add_tokens _ _ st' W N). congruence.
Qed.

Lemma consumed_ok st stk b st' stk' tk r : bytes_ok b -> consumed st stk b st' stk' tk r -> bytes_ok r.
Proof.
  intros Hb C. inversion C; subst; try (inversion Hb; subst; assumption).
  - inversion Hb as [|? ? _ Hb']; subst. apply bytes_ok_app in Hb' as [_ Hb']. inversion Hb'; subst; assumption.
  - apply bytes_ok_app in Hb. tauto.
Qed.
Lemma parse_malformed : forall f st stk b ts e l, bytes_ok b -> holds st stk l -> parse f st stk b = (ts, Some e) ->
  exists j us, completes (so_far l ++ ts) j us.
Proof.
  induction f as [|f IH]; intros st stk b ts e l Hb Hl H; cbn [parse] in H.
  { assert (ts = []) by congruence. subst. rewrite app_nil_r. now apply (complete st stk). }
  destruct b as [|c b]; [assert (ts = []) by congruence; subst; rewrite app_nil_r; now apply (complete st stk)|].
  destruct (step st stk (skip_ws (c :: b))) as [[[[st' stk'] tk] r]|e'|w] eqn:Es;
    [|assert (ts = []) by congruence; subst; rewrite app_nil_r; now apply (complete st stk)..].
  pose proof (step_inv _ _ _ _ _ _ _ (skip_ws_ok _ Hb) Es) as C.
  pose proof (consumed_ok _ _ _ _ _ _ _ (skip_ws_ok _ Hb) C) as Hr.
  assert (G : st' <> PFinish -> (let (ts0, e0) := parse f st' stk' r in (match tk with Some t => t :: ts0 | None => ts0 end, e0)) = (ts, Some e) ->
     exists j us, completes (so_far l ++ ts) j us).
  { intros NF G. destruct (consumed_holds _ _ _ _ _ _ _ l Hl C NF) as (l' & Hl' & El').
    destruct (parse f st' stk' r) as [rest e1] eqn:Ep.
    assert (e1 = Some e) by congruence. subst e1.
    assert (ts = match tk with Some t => t :: rest | None => rest end) by congruence. subst ts.
    destruct (IH _ _ _ _ _ l' Hr Hl' Ep) as (j & us & Hu). exists j, us. rewrite El', <- app_assoc in Hu.
    destruct tk; exact Hu. }
  destruct st'; try (apply G; [discriminate|exact H]).
  destruct (skip_ws r); [discriminate|]. assert (ts = []) by congruence. subst. rewrite app_nil_r. now apply (complete st stk).
Qed.

Theorem malformed_tokens t ts e : bytes_ok t -> tokenize t = (ts, Some e) -> exists j us, completes ts j us.
Proof.
  intros Hb H. unfold tokenize in H.
  exact (parse_malformed _ PStart [] _ _ _ [] (cstr_ok _ Hb) ltac:(split; exact Logic.I) H).
Qed.
