(** * The JSON reader accepts every JSON text and delivers its tokens. *)
From Verif Require Import Base Hex Utf8 Json JsonSpec JsonStrFacts.

Lemma span_digits_len b d r : span_digits b = (d, r) -> List.length b = (List.length d + List.length r)%nat.
Proof. intros H. apply span_digits_spec in H as (-> & _). apply app_length. Qed.

Lemma parse_hex_len n : forall acc b u r, parse_hex n acc b = Ok (u, r) -> List.length b = (n + List.length r)%nat.
Proof.
  induction n as [|n IH]; intros acc b u r; cbn [parse_hex]; [intros [= <- <-]; reflexivity|].
  destruct b as [|c b]; [discriminate|]. destruct (get_digit c); [|discriminate].
  intros H. apply IH in H. cbn [List.length]. lia.
Qed.
Lemma parse_string_len fuel : forall b s r, parse_string fuel b = Ok (s, r) -> (List.length r < List.length b)%nat.
Proof.
  induction fuel as [|fuel IH]; intros b s r H; [discriminate|].
  cbn [parse_string] in H. destruct b as [|c b1]; [discriminate|]. cbn [List.length].
  destruct (c =? 92).
  - destruct b1 as [|e b2]; [discriminate|]. cbn [List.length].
    destruct (escape_char e).
    + apply bind_Ok in H as ((s' & r') & H1 & [= <- <-]). apply IH in H1. lia.
    + destruct (e =? 117); [|discriminate]. apply bind_Ok in H as ((cp & b3) & H1 & H).
      apply parse_hex_len in H1.
      destruct ((55296 <=? cp) && (cp <=? 56319)).
      * rewrite match_bs_u in H. destruct b3 as [|x [|y b4]]; try discriminate.
        destruct ((x =? 92) && (y =? 117)); [|discriminate].
        apply bind_Ok in H as ((cp2 & b5) & H2 & H). apply parse_hex_len in H2.
        destruct ((cp2 <? 56320) || (57343 <? cp2)); [discriminate|].
        apply bind_Ok in H as ((s' & r') & H3 & H).
        assert (r' = r) by congruence. subst. apply IH in H3. cbn [List.length] in H1. lia.
      * apply bind_Ok in H as ((s' & r') & H3 & H).
        assert (r' = r) by congruence. subst. apply IH in H3. lia.
  - destruct (c =? 34); [injection H as <- <-; lia|].
    destruct (c <? 32); [discriminate|].
    destruct (utf8_validate (c :: b1)) as [n|]; [|discriminate].
    apply bind_Ok in H as ((s' & r') & H3 & H).
    assert (r' = r) by congruence. subst. apply IH in H3. rewrite skipn_length in H3. cbn [List.length] in H3. lia.
Qed.
Lemma parse_number_len b t r : parse_number b = Ok (t, r) -> (List.length r < List.length b)%nat.
Proof.
  intros H. apply parse_number_sound in H as (-> & _ & N). rewrite app_length. destruct t; [congruence|]. cbn [List.length]. lia.
Qed.
Lemma strip_spec p b r : strip p b = Some r <-> b = p ++ r.
Proof.
  revert b; induction p as [|x p IH]; intros b; cbn [strip app].
  - split; congruence.
  - destruct b as [|y b]; [split; discriminate|]. destruct (Z.eqb_spec x y) as [->|N].
    + rewrite IH. split; congruence.
    + split; congruence.
Qed.
Lemma literal_len p t b t' r : p <> [] -> literal p t b = Ok (t', r) -> (List.length r < List.length b)%nat.
Proof.
  unfold literal. intros Hp. destruct (strip p b) as [r'|] eqn:E; [|discriminate]. intros [= <- <-].
  apply strip_spec in E as ->. rewrite app_length. destruct p; [congruence|]. cbn [List.length]. lia.
Qed.

Lemma step_len st stk b st' stk' tk r : step st stk b = Ok (st', stk', tk, r) -> (List.length r < List.length b)%nat.
Proof.
  unfold step. intros H.
  assert (V : forall k, (forall t0 r0, k = Ok (t0, r0) -> (List.length r0 < List.length b)%nat) ->
    match after st with Some st'0 => let* (t, r) := k in Ok (st'0, stk, Some t, r) | None => Err (handle_error st) end = Ok (st', stk', tk, r) ->
    (List.length r < List.length b)%nat).
  { intros k Hk. destruct (after st); [|discriminate]. intros H1. apply bind_Ok in H1 as ((t0 & r0) & H1 & H2).
    injection H2 as _ _ _ <-. eauto. }
  destruct b as [|c b].
  { eapply V; [|exact H]. intros t0 r0 E. cbn in E. discriminate. }
  assert (Lc : (List.length b < List.length (c :: b))%nat) by (cbn; lia).
  destruct (c =? 91). { destruct (after st); [|discriminate]. injection H as _ _ _ <-. exact Lc. }
  destruct (c =? 123). { destruct (after st); [|discriminate]. injection H as _ _ _ <-. exact Lc. }
  destruct (c =? 93). { destruct st; try discriminate; destruct stk; try discriminate; injection H as _ _ _ <-; exact Lc. }
  destruct (c =? 125). { destruct st; try discriminate; destruct stk; try discriminate; injection H as _ _ _ <-; exact Lc. }
  destruct (c =? 44). { destruct st; try discriminate; injection H as _ _ _ <-; exact Lc. }
  destruct (c =? 58). { destruct st; try discriminate; injection H as _ _ _ <-; exact Lc. }
  destruct (c =? 34).
  { assert (K : (let* (s, r') := parse_string (S (List.length b)) b in Ok (PKey, stk, Some (TkKey s), r')) = Ok (st', stk', tk, r) ->
       (List.length r < List.length (c :: b))%nat).
    { intros H1. apply bind_Ok in H1 as ((s' & r') & H1 & H2). injection H2 as _ _ _ <-.
      apply parse_string_len in H1. cbn [List.length]. lia. }
    assert (W : forall t0 r0, (let* (s, r') := parse_string (S (List.length b)) b in Ok (TkString s, r')) = Ok (t0, r0) ->
       (List.length r0 < List.length (c :: b))%nat).
    { intros t0 r0 H1. apply bind_Ok in H1 as ((s' & r') & H1 & H2). injection H2 as _ <-.
      apply parse_string_len in H1. cbn [List.length]. lia. }
    destruct st; try (apply K; exact H); (eapply V; [exact W | exact H]). }
  destruct (c =? 110). { eapply V; [|exact H]. intros t0 r0. apply literal_len. discriminate. }
  destruct (c =? 116). { eapply V; [|exact H]. intros t0 r0. apply literal_len. discriminate. }
  destruct (c =? 102). { eapply V; [|exact H]. intros t0 r0. apply literal_len. discriminate. }
  eapply V; [|exact H]. intros t0 r0 H1. apply bind_Ok in H1 as ((s' & r') & H1 & H2). injection H2 as _ <-.
  eapply parse_number_len; eauto.
Qed.
Lemma skip_ws_len b : (List.length (skip_ws b) <= List.length b)%nat.
Proof. induction b as [|c b IH]; [cbn; lia|]. cbn [skip_ws]. destruct (is_ws c); cbn [List.length]; lia. Qed.

Lemma parse_fuel : forall f f' st stk b, (List.length b < f)%nat -> (List.length b < f')%nat ->
  parse f st stk b = parse f' st stk b.
Proof.
  induction f as [|f IH]; intros f' st stk b H H'; [lia|]. destruct f' as [|f']; [lia|].
  cbn [parse]. destruct b as [|c b]; [reflexivity|].
  destruct (step st stk (skip_ws (c :: b))) as [[[[st' stk'] tk] r]|e|w] eqn:E; auto.
  apply step_len in E. pose proof (skip_ws_len (c :: b)).
  assert (R : parse f st' stk' r = parse f' st' stk' r) by (apply IH; lia).
  rewrite R. reflexivity.
Qed.

Definition P (st : pstate) (stk : list pstate) (b : bytes) := parse (S (List.length b)) st stk b.
(** What the rest of the run produces from a state. *)
Definition cont (st : pstate) (stk : list pstate) (b : bytes) (out : list token * option error) : Prop :=
  (st = PFinish /\ ws b /\ out = ([], None)) \/ (st <> PFinish /\ out = P st stk b).

Definition ocons (t : option token) (ts : list token) := match t with Some t => t :: ts | None => ts end.

Lemma is_ws_spec c : is_ws c = true <-> (c = 32 \/ c = 9 \/ c = 10 \/ c = 13).
Proof. unfold is_ws. lia. Qed.
Lemma skip_ws_app w b : ws w -> skip_ws (w ++ b) = skip_ws b.
Proof.
  induction 1 as [|c w Hc Hw IH]; [reflexivity|]. cbn [app skip_ws].
  rewrite (proj2 (is_ws_spec c) Hc). exact IH.
Qed.
Lemma skip_ws_ws w : ws w -> skip_ws w = [].
Proof. intros H. rewrite <- (app_nil_r w). rewrite skip_ws_app; auto. Qed.
Lemma skip_ws_cons c b : is_ws c = false -> skip_ws (c :: b) = c :: b.
Proof. intros H. cbn [skip_ws]. rewrite H. reflexivity. Qed.

Lemma P_step st stk w b st' stk' tk r out :
  ws w -> b <> [] -> skip_ws b = b ->
  step st stk b = Ok (st', stk', tk, r) -> cont st' stk' r out ->
  P st stk (w ++ b) = (ocons tk (fst out), snd out).
Proof.
  intros Hw Hb Hs Hst Hc. unfold P. cbn [parse].
  destruct (w ++ b) as [|x wb] eqn:E.
  { destruct w; [cbn in E; congruence|discriminate]. }
  rewrite <- E, skip_ws_app, Hs, Hst by auto.
  destruct Hc as [(-> & Hr & ->)|(Hn & ->)].
  - rewrite skip_ws_ws by auto. destruct tk; reflexivity.
  - assert (Hl : parse (List.length (x :: wb)) st' stk' r = P st' stk' r).
    { unfold P. apply parse_fuel; [|lia]. rewrite <- E. apply step_len in Hst. rewrite app_length. lia. }
    rewrite E, Hl. destruct (P st' stk' r) as [ts e]. cbn [fst snd].
    destruct st'; try congruence; destruct tk; reflexivity.
Qed.

Lemma numend_ws w r : ws w -> numend r -> numend (w ++ r).
Proof.
  intros Hw Hr. destruct Hw as [|c w Hc Hw]; [exact Hr|]. intros c' r'. cbn [app]. intros [= <- <-].
  unfold is_dig. lia.
Qed.
Lemma numend_char c r : is_dig c = false -> c <> 46 -> c <> 101 -> c <> 69 -> numend (c :: r).
Proof. intros ? ? ? ? c' r' [= <- <-]. auto. Qed.

Lemma unframe_frame st st' : after st = Some st' -> unframe (frame st) = st'.
Proof. destruct st; cbn; congruence. Qed.

Lemma number_hd t : number_text t -> exists c r, t = c :: r /\ (c = 45 \/ 48 <= c <= 57).
Proof.
  intros (m & i & f & e & -> & Hm & Hi & _).
  destruct Hm as [->| ->]; cbn [app]; [|do 2 eexists; split; [reflexivity|auto]].
  destruct Hi as [->|(c & d & -> & Hc & _)]; cbn [app]; do 2 eexists; (split; [reflexivity|lia]).
Qed.
Lemma step_value st st' stk c b tk r :
  after st = Some st' -> c <> 91 -> c <> 123 -> c <> 93 -> c <> 125 -> c <> 44 -> c <> 58 ->
  (if c =? 34 then (let* (s, r') := parse_string (S (List.length b)) b in Ok (TkString s, r'))
   else if c =? 110 then literal (str "null") TkNull (c :: b)
   else if c =? 116 then literal (str "true") (TkBool true) (c :: b)
   else if c =? 102 then literal (str "false") (TkBool false) (c :: b)
   else (let* (n, r') := parse_number (c :: b) in Ok (TkString n, r'))) = Ok (tk, r) ->
  step st stk (c :: b) = Ok (st', stk, Some tk, r).
Proof.
  intros Ha N1 N2 N3 N4 N5 N6 H. unfold step.
  rewrite (proj2 (Z.eqb_neq c 91) N1), (proj2 (Z.eqb_neq c 123) N2), (proj2 (Z.eqb_neq c 93) N3),
          (proj2 (Z.eqb_neq c 125) N4), (proj2 (Z.eqb_neq c 44) N5), (proj2 (Z.eqb_neq c 58) N6).
  rewrite Ha.
  destruct (c =? 34). { destruct st; cbn in Ha; try discriminate; rewrite H; reflexivity. }
  destruct (c =? 110); [rewrite H; reflexivity|].
  destruct (c =? 116); [rewrite H; reflexivity|].
  destruct (c =? 102); rewrite H; reflexivity.
Qed.

(** A string followed by its closing quote. *)
Lemma parse_string_at lax s t rest : string_text lax s t ->
  parse_string (S (List.length (t ++ 34 :: rest))) (t ++ 34 :: rest) = Ok (s, rest).
Proof. intros H. eapply parse_string_complete; eauto. rewrite app_length. lia. Qed.

Definition Pval (lax : bool) (j : jv) (t : bytes) : Prop :=
  forall st st' stk w rest out,
    after st = Some st' -> ws w -> numend rest -> cont st' stk rest out ->
    P st stk (w ++ t ++ rest) = (tokens j ++ fst out, snd out).
Definition Pitems (lax : bool) (l : list jv) (t : bytes) : Prop :=
  forall st s stk rest out,
    st = PArrInit \/ st = PEComma -> cont (unframe s) stk rest out ->
    P st (s :: stk) (t ++ 93 :: rest) = (concat (map tokens l) ++ TkEndArray :: fst out, snd out).
Definition Pmembers (lax : bool) (l : list (bytes * jv)) (t : bytes) : Prop :=
  forall st s stk rest out,
    st = PObjInit \/ st = PMComma -> cont (unframe s) stk rest out ->
    P st (s :: stk) (t ++ 125 :: rest) =
      (concat (map (fun kv => TkKey (fst kv) :: tokens (snd kv)) l) ++ TkEndObject :: fst out, snd out).

Lemma cont_P st stk b : st <> PFinish -> cont st stk b (P st stk b).
Proof. intros H. right. auto. Qed.

Lemma close_arr w st s stk rest out : st = PArrInit \/ st = PElem ->
  ws w -> cont (unframe s) stk rest out ->
  P st (s :: stk) (w ++ 93 :: rest) = (TkEndArray :: fst out, snd out).
Proof.
  intros Hst Hw Hc.
  assert (S1 : step st (s :: stk) (93 :: rest) = Ok (unframe s, stk, Some TkEndArray, rest)) by (destruct Hst as [->| ->]; reflexivity).
  erewrite P_step; [| exact Hw | discriminate | reflexivity | exact S1 | exact Hc]. reflexivity.
Qed.
Lemma close_obj w st s stk rest out : st = PObjInit \/ st = PMember ->
  ws w -> cont (unframe s) stk rest out ->
  P st (s :: stk) (w ++ 125 :: rest) = (TkEndObject :: fst out, snd out).
Proof.
  intros Hst Hw Hc.
  assert (S1 : step st (s :: stk) (125 :: rest) = Ok (unframe s, stk, Some TkEndObject, rest)) by (destruct Hst as [->| ->]; reflexivity).
  erewrite P_step; [| exact Hw | discriminate | reflexivity | exact S1 | exact Hc]. reflexivity.
Qed.
(** A key and its colon. *)
Lemma parse_key lax st stk w1 k kt w2 r : st = PObjInit \/ st = PMComma -> ws w1 -> ws w2 -> string_text lax k kt ->
  P st stk (w1 ++ 34 :: kt ++ 34 :: w2 ++ 58 :: r) =
  (TkKey k :: fst (P PColon stk r), snd (P PColon stk r)).
Proof.
  intros Hst Hw1 Hw2 Hk.
  assert (S1 : step st stk (34 :: kt ++ 34 :: w2 ++ 58 :: r) = Ok (PKey, stk, Some (TkKey k), w2 ++ 58 :: r)).
  { unfold step. destruct Hst as [->| ->]; cbn [Z.eqb Pos.eqb]; rewrite (parse_string_at lax _ _ _ Hk); reflexivity. }
  erewrite P_step; [| exact Hw1 | discriminate | reflexivity | exact S1 | apply cont_P; discriminate].
  cbn [ocons].
  erewrite (P_step PKey); [| exact Hw2 | discriminate | reflexivity | reflexivity | apply cont_P; discriminate].
  reflexivity.
Qed.
Lemma comma st st' stk w r : (st = PElem /\ st' = PEComma) \/ (st = PMember /\ st' = PMComma) -> ws w ->
  P st stk (w ++ 44 :: r) = P st' stk r.
Proof.
  intros Hst Hw.
  assert (S1 : step st stk (44 :: r) = Ok (st', stk, None, r)) by (destruct Hst as [[-> ->]|[-> ->]]; reflexivity).
  erewrite P_step; [| exact Hw | discriminate | reflexivity | exact S1 | apply cont_P; destruct Hst as [[-> ->]|[-> ->]]; discriminate].
  cbn [ocons]. symmetry. apply surjective_pairing.
Qed.

Lemma ws_nil : ws []. Proof. constructor. Qed.
Lemma number_fits_text t : number_fits t -> number_text t.
Proof. intros (m & i & f & e & H & _). exists m, i, f, e. exact H. Qed.

Theorem reader_complete lax :
  (forall j t, value_text lax j t -> Pval lax j t) /\
  (forall l t, items_text lax l t -> Pitems lax l t) /\
  (forall l t, members_text lax l t -> Pmembers lax l t).
Proof.
  apply json_text_mutind.
  - intros st st' stk w rest out Ha Hw Hn Hc.
    change (str "null") with [110;117;108;108]; cbn [app].
    erewrite P_step; [| exact Hw | discriminate | reflexivity | eapply (step_value _ _ _ _ _ (TkNull)); [exact Ha|lia..|reflexivity] | exact Hc]. reflexivity.
  - intros st st' stk w rest out Ha Hw Hn Hc.
    change (str "true") with [116;114;117;101]; cbn [app].
    erewrite P_step; [| exact Hw | discriminate | reflexivity | eapply (step_value _ _ _ _ _ (TkBool true)); [exact Ha|lia..|reflexivity] | exact Hc]. reflexivity.
  - intros st st' stk w rest out Ha Hw Hn Hc.
    change (str "false") with [102;97;108;115;101]; cbn [app].
    erewrite P_step; [| exact Hw | discriminate | reflexivity | eapply (step_value _ _ _ _ _ (TkBool false)); [exact Ha|lia..|reflexivity] | exact Hc]. reflexivity.
  - intros s t Ht st st' stk w rest out Ha Hw Hn Hc.
    change ((34 :: t ++ [34]) ++ rest) with (34 :: (t ++ [34]) ++ rest). rewrite <- (app_assoc t). cbn [app].
    assert (S1 : step st stk (34 :: t ++ 34 :: rest) = Ok (st', stk, Some (TkString s), rest)).
    { eapply step_value; [exact Ha|lia..|]. rewrite Z.eqb_refl. rewrite (parse_string_at lax _ _ _ Ht). reflexivity. }
    erewrite P_step; [| exact Hw | discriminate | reflexivity | exact S1 | exact Hc].
    reflexivity.
  - intros t Ht st st' stk w rest out Ha Hw Hn Hc.
    pose proof (parse_number_complete t rest Ht Hn) as Pn.
    destruct (number_hd t (number_fits_text _ Ht)) as (c & t' & -> & Hcc). cbn [app] in *.
    assert (is_ws c = false) by (unfold is_ws; lia).
    assert (S1 : step st stk (c :: t' ++ rest) = Ok (st', stk, Some (TkString (c :: t')), rest)).
    { eapply step_value; [exact Ha|lia..|].
      assert ((c =? 34) = false /\ (c =? 110) = false /\ (c =? 116) = false /\ (c =? 102) = false) as (E1 & E2 & E3 & E4) by lia.
      rewrite E1, E2, E3, E4, Pn. reflexivity. }
    erewrite P_step; [| exact Hw | discriminate | apply skip_ws_cons; assumption | exact S1 | exact Hc].
    reflexivity.
  - intros w0 Hw0 st st' stk w rest out Ha Hw Hn Hc.
    change ((91 :: w0 ++ [93]) ++ rest) with (91 :: (w0 ++ [93]) ++ rest). rewrite <- app_assoc. cbn [app].
    erewrite P_step; [| exact Hw | discriminate | reflexivity | unfold step; cbn [Z.eqb Pos.eqb]; rewrite Ha; reflexivity | apply cont_P; discriminate].
    rewrite (close_arr w0 PArrInit _ stk rest out); auto. rewrite (unframe_frame _ _ Ha). exact Hc.
  - intros l t Ht IH st st' stk w rest out Ha Hw Hn Hc.
    change ((91 :: t ++ [93]) ++ rest) with (91 :: (t ++ [93]) ++ rest). rewrite <- app_assoc. cbn [app].
    erewrite P_step; [| exact Hw | discriminate | reflexivity | unfold step; cbn [Z.eqb Pos.eqb]; rewrite Ha; reflexivity | apply cont_P; discriminate].
    rewrite (IH PArrInit _ stk rest out); auto.
    + cbn [ocons fst snd tokens]. cbn [app]. rewrite <- app_assoc. reflexivity.
    + rewrite (unframe_frame _ _ Ha). exact Hc.
  - intros w0 Hw0 st st' stk w rest out Ha Hw Hn Hc.
    change ((123 :: w0 ++ [125]) ++ rest) with (123 :: (w0 ++ [125]) ++ rest). rewrite <- app_assoc. cbn [app].
    erewrite P_step; [| exact Hw | discriminate | reflexivity | unfold step; cbn [Z.eqb Pos.eqb]; rewrite Ha; reflexivity | apply cont_P; discriminate].
    rewrite (close_obj w0 PObjInit _ stk rest out); auto. rewrite (unframe_frame _ _ Ha). exact Hc.
  - intros l t Ht IH st st' stk w rest out Ha Hw Hn Hc.
    change ((123 :: t ++ [125]) ++ rest) with (123 :: (t ++ [125]) ++ rest). rewrite <- app_assoc. cbn [app].
    erewrite P_step; [| exact Hw | discriminate | reflexivity | unfold step; cbn [Z.eqb Pos.eqb]; rewrite Ha; reflexivity | apply cont_P; discriminate].
    rewrite (IH PObjInit _ stk rest out); auto.
    + cbn [ocons fst snd tokens]. cbn [app]. rewrite <- app_assoc. reflexivity.
    + rewrite (unframe_frame _ _ Ha). exact Hc.
  - (* items: one *)
    intros j w1 t w2 Hw1 Ht IH Hw2 st s stk rest out Hst Hc.
    rewrite <- !app_assoc.
    assert (Ha : after st = Some PElem) by (destruct Hst as [->| ->]; reflexivity).
    rewrite (IH st PElem (s :: stk) w1 (w2 ++ 93 :: rest) (P PElem (s :: stk) (w2 ++ 93 :: rest))); auto.
    + rewrite (close_arr w2 PElem s stk rest out) by auto. cbn [fst snd map concat]. rewrite app_nil_r. reflexivity.
    + apply numend_ws; auto. apply numend_char; unfold is_dig; lia.
    + apply cont_P; discriminate.
  - (* items: cons *)
    intros j w1 t w2 l ts Hw1 Ht IH Hw2 Hl IHl st s stk rest out Hst Hc.
    rewrite <- !app_assoc. cbn [app].
    assert (Ha : after st = Some PElem) by (destruct Hst as [->| ->]; reflexivity).
    rewrite (IH st PElem (s :: stk) w1 (w2 ++ 44 :: ts ++ 93 :: rest) (P PElem (s :: stk) (w2 ++ 44 :: ts ++ 93 :: rest))); auto.
    + rewrite (comma PElem PEComma) by auto.
      rewrite (IHl PEComma s stk rest out) by auto. cbn [fst snd map concat]. rewrite app_assoc. reflexivity.
    + apply numend_ws; auto. apply numend_char; unfold is_dig; lia.
    + apply cont_P; discriminate.
  - (* members: one *)
    intros k j w1 kt w2 w3 t w4 Hw1 Hk Hw2 Hw3 Ht IH Hw4 st s stk rest out Hst Hc.
    repeat (rewrite <- ?app_assoc; cbn [app]).
    rewrite (parse_key lax st (s :: stk) w1 k kt w2) by auto.
    rewrite (IH PColon PMember (s :: stk) w3 (w4 ++ 125 :: rest) (P PMember (s :: stk) (w4 ++ 125 :: rest))); auto.
    + rewrite (close_obj w4 PMember s stk rest out) by auto. cbn [fst snd map concat app]. rewrite app_nil_r. reflexivity.
    + apply numend_ws; auto. apply numend_char; unfold is_dig; lia.
    + apply cont_P; discriminate.
  - (* members: cons *)
    intros k j w1 kt w2 w3 t w4 l ts Hw1 Hk Hw2 Hw3 Ht IH Hw4 Hl IHl st s stk rest out Hst Hc.
    repeat (rewrite <- ?app_assoc; cbn [app]).
    rewrite (parse_key lax st (s :: stk) w1 k kt w2) by auto.
    rewrite (IH PColon PMember (s :: stk) w3 (w4 ++ 44 :: ts ++ 125 :: rest) (P PMember (s :: stk) (w4 ++ 44 :: ts ++ 125 :: rest))); auto.
    + rewrite (comma PMember PMComma) by auto.
      rewrite (IHl PMComma s stk rest out) by auto. cbn [fst snd map concat app]. rewrite <- app_assoc. reflexivity.
    + apply numend_ws; auto. apply numend_char; unfold is_dig; lia.
    + apply cont_P; discriminate.
Qed.

(** No NUL inside a JSON text. *)
Definition nz (t : bytes) : Prop := Forall (fun c => c <> 0) t.
Lemma nz_app a b : nz (a ++ b) <-> nz a /\ nz b. Proof. apply Forall_app. Qed.
Lemma nz_cons a b : nz (a :: b) <-> a <> 0 /\ nz b.
Proof. split; [intros H; inversion H; auto|intros []; constructor; auto]. Qed.
Lemma ws_nz w : ws w -> nz w.
Proof. apply Forall_impl. intros; lia. Qed.
Lemma digits_nz w : digits w -> nz w.
Proof. apply Forall_impl. intros; lia. Qed.
Lemma utf8_enc_nz cp : 0 < cp < 1114112 -> nz (utf8_enc cp).
Proof.
  intros H. unfold utf8_enc, nz.
  destruct (Z.ltb_spec cp 128); [repeat constructor; lia|].
  destruct (Z.ltb_spec cp 2048); [repeat constructor; lia|].
  destruct (Z.ltb_spec cp 65536); repeat constructor; lia.
Qed.
Lemma hex4_nz u h : hex4 u h -> nz h.
Proof.
  intros (a & b' & c & d & va & vb & vc & vd & -> & Ha & Hb & Hc & Hd & ->).
  apply hexdigit_range in Ha, Hb, Hc, Hd. repeat constructor; lia.
Qed.
Lemma string_text_nz lax s t : string_text lax s t -> nz t.
Proof.
  induction 1; rewrite ?nz_app, ?nz_cons, ?nz_app, ?nz_cons, ?nz_app; try (repeat split; eauto using hex4_nz; lia).
  - constructor.
  - split; auto. apply utf8_enc_nz. unfold scalar in *. lia.
  - repeat split; [lia| |auto]. unfold short_escape in *. cbn [In] in *. intros ->.
    repeat match goal with H : _ \/ _ |- _ => destruct H end; congruence.
Qed.
Lemma number_nz t : number_text t -> nz t.
Proof.
  intros (m & i & f & e & -> & Hm & Hi & Hf & He). rewrite !nz_app. repeat split.
  - destruct Hm as [->| ->]; repeat constructor; lia.
  - destruct Hi as [->|(c & d & -> & Hc & Hd)]; [repeat constructor; lia|]. apply nz_cons. split; [lia|]. apply digits_nz; auto.
  - destruct Hf as [->|(d & -> & _ & Hd)]; [constructor|]. apply nz_cons. split; [lia|]. apply digits_nz; auto.
  - destruct He as [->|(c & sg & d & -> & Hc & Hsg & _ & Hd)]; [constructor|]. rewrite nz_cons, nz_app. repeat split; [lia| |apply digits_nz; auto].
    destruct Hsg as [->|[->| ->]]; repeat constructor; lia.
Qed.
Lemma text_nz lax :
  (forall j t, value_text lax j t -> nz t) /\ (forall l t, items_text lax l t -> nz t) /\ (forall l t, members_text lax l t -> nz t).
Proof.
  apply json_text_mutind; intros;
    repeat (rewrite ?nz_app, ?nz_cons);
    repeat match goal with
      | H : ws _ |- _ => apply ws_nz in H
      | H : string_text _ _ _ |- _ => apply string_text_nz in H
      end;
    try (repeat split; auto; try lia; constructor; fail).
  - repeat constructor; discriminate.
  - repeat constructor; discriminate.
  - repeat constructor; discriminate.
  - apply number_nz, number_fits_text; auto.
Qed.
Lemma cstr_nz t : nz t -> cstr t = t.
Proof.
  induction 1 as [|c t Hc Ht IH]; [reflexivity|]. cbn [cstr]. destruct (Z.eqb_spec c 0); [congruence|]. rewrite IH. reflexivity.
Qed.

Theorem tokenize_complete lax j t : json_text_gen lax j t -> tokenize t = (tokens j, None).
Proof.
  intros (w1 & b & w2 & Hw1 & Hv & Hw2 & ->). unfold tokenize.
  assert (N : nz (w1 ++ b ++ w2)).
  { rewrite !nz_app. split; [apply ws_nz; auto|]. split; [|apply ws_nz; auto]. destruct (text_nz lax) as (T & _). eapply T; eauto. }
  rewrite cstr_nz by exact N.
  change (P PStart [] (w1 ++ b ++ w2) = (tokens j, None)).
  rewrite (proj1 (reader_complete lax) j b Hv PStart PFinish [] w1 w2 ([], None)); auto.
  - cbn [fst snd]. rewrite app_nil_r. reflexivity.
  - rewrite <- (app_nil_r w2). apply numend_ws; auto. intros ? ?; discriminate.
  - left. auto.
Qed.
