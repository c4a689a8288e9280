(** * The JSON reader accepts nothing but JSON texts. *)
From Verif Require Import Base Hex Utf8 Json JsonSpec JsonStrFacts JsonFacts.

Definition contS (st : pstate) (stk : list pstate) (b : bytes) (ts : list token) : Prop :=
  (st = PFinish /\ ws b /\ ts = []) \/ (st <> PFinish /\ P st stk b = (ts, None)).

Lemma skip_ws_split b : exists w, ws w /\ b = w ++ skip_ws b /\ skip_ws (skip_ws b) = skip_ws b.
Proof.
  induction b as [|c b (w & Hw & E & I)]; [exists []; repeat split; constructor|].
  cbn [skip_ws]. destruct (is_ws c) eqn:Ec.
  - exists (c :: w). repeat split; auto; [constructor; auto; apply is_ws_spec; auto | cbn [app]; rewrite <- E; reflexivity].
  - exists []. repeat split; [constructor|]. cbn [skip_ws]. rewrite Ec. reflexivity.
Qed.
Lemma skip_ws_nil b : skip_ws b = [] -> ws b.
Proof.
  intros H. destruct (skip_ws_split b) as (w & Hw & E & _). rewrite H, app_nil_r in E. congruence.
Qed.

Lemma P_inv st stk b ts : P st stk b = (ts, None) ->
  exists w b' st' stk' tk r ts', b = w ++ b' /\ ws w /\
    step st stk b' = Ok (st', stk', tk, r) /\ ts = ocons tk ts' /\ contS st' stk' r ts'.
Proof.
  unfold P. cbn [parse]. destruct b as [|c b]; [intros [=]|]. intros H.
  destruct (skip_ws_split (c :: b)) as (w & Hw & E & I).
  remember (skip_ws (c :: b)) as b' eqn:Eb'.
  destruct (step st stk b') as [[[[st' stk'] tk] r]|e|x] eqn:Es; try discriminate.
  exists w, b', st', stk', tk, r.
  destruct st'.
  10: { destruct (skip_ws r) eqn:Er; [|discriminate]. exists []. split; [exact E|]. split; [exact Hw|]. split; [exact Es|]. split.
        - destruct tk; cbn [ocons]; congruence.
        - left. split; [reflexivity|]. split; [apply skip_ws_nil; auto|reflexivity]. }
  all: match type of H with (let (_, _) := parse ?f ?s ?k ?x in _) = _ =>
         assert (Hp : parse f s k x = P s k x) by
           (unfold P; apply parse_fuel; [|lia]; apply step_len in Es; apply (f_equal (@List.length Z)) in E;
            rewrite app_length in E; lia);
         rewrite Hp in H; destruct (P s k x) as [ts1 e1] eqn:E1 end;
       exists ts1; injection H as H1 H2; subst e1;
       (split; [exact E|split; [exact Hw|split; [exact Es|split; [destruct tk; cbn [ocons]; congruence | right; split; [discriminate|exact E1]]]]]).
Qed.

(** What a successful step consumed. *)
Inductive consumed (st : pstate) (stk : list pstate) : bytes -> pstate -> list pstate -> option token -> bytes -> Prop :=
| Co_arr st' r : after st = Some st' -> consumed st stk (91 :: r) PArrInit (frame st :: stk) (Some TkStartArray) r
| Co_obj st' r : after st = Some st' -> consumed st stk (123 :: r) PObjInit (frame st :: stk) (Some TkStartObject) r
| Co_earr s stk' r : stk = s :: stk' -> st = PArrInit \/ st = PElem ->
    consumed st stk (93 :: r) (unframe s) stk' (Some TkEndArray) r
| Co_eobj s stk' r : stk = s :: stk' -> st = PObjInit \/ st = PMember ->
    consumed st stk (125 :: r) (unframe s) stk' (Some TkEndObject) r
| Co_comma st' r : (st = PElem /\ st' = PEComma) \/ (st = PMember /\ st' = PMComma) ->
    consumed st stk (44 :: r) st' stk None r
| Co_colon r : st = PKey -> consumed st stk (58 :: r) PColon stk None r
| Co_key s t r : st = PObjInit \/ st = PMComma -> string_text true s t ->
    consumed st stk (34 :: t ++ 34 :: r) PKey stk (Some (TkKey s)) r
| Co_val st' j t r tk : after st = Some st' -> value_text true j t -> tokens j = [tk] ->
    consumed st stk (t ++ r) st' stk (Some tk) r.

Lemma step_inv st stk b st' stk' tk r : bytes_ok b -> step st stk b = Ok (st', stk', tk, r) ->
  consumed st stk b st' stk' tk r.
Proof.
  intros Hb H. unfold step in H.
  assert (VN : match after st with Some st'0 => let* (t, r) := (let* (n, r') := parse_number b in Ok (TkString n, r')) in Ok (st'0, stk, Some t, r) | None => Err (handle_error st) end = Ok (st', stk', tk, r) ->
    consumed st stk b st' stk' tk r).
  { intros H1. destruct (after st) as [s1|] eqn:Ha; [|discriminate].
    apply bind_Ok in H1 as ((t0 & r0) & H1 & H2). apply bind_Ok in H1 as ((n & r') & H1 & H3).
    apply parse_number_sound in H1 as (-> & Hn & _).
    assert (t0 = TkString n /\ r0 = r' /\ s1 = st' /\ stk = stk' /\ Some t0 = tk /\ r0 = r) as (-> & -> & -> & <- & <- & ->)
      by (repeat split; congruence).
    eapply Co_val with (j := JNum n); eauto. constructor; auto. }
  assert (VL : forall p t0 j, value_text true j p -> tokens j = [t0] ->
    match after st with Some st'0 => let* (t, r) := literal p t0 b in Ok (st'0, stk, Some t, r) | None => Err (handle_error st) end = Ok (st', stk', tk, r) ->
    consumed st stk b st' stk' tk r).
  { intros p t0 j Hj Hj2 H1. destruct (after st) as [s1|] eqn:Ha; [|discriminate].
    apply bind_Ok in H1 as ((t1 & r0) & H1 & H2). unfold literal in H1.
    destruct (strip p b) as [r'|] eqn:E; [|discriminate]. apply strip_spec in E as ->.
    assert (t1 = t0 /\ r0 = r' /\ s1 = st' /\ stk = stk' /\ Some t0 = tk /\ r0 = r) as (-> & -> & -> & <- & <- & ->)
      by (repeat split; congruence).
    eapply Co_val; eauto. }
  destruct b as [|c b]; [apply VN; exact H|].
  inversion Hb as [|? ? Hc Hb']; subst.
  destruct (Z.eqb_spec c 91) as [->|]. { destruct (after st) eqn:Ha; [|discriminate]. injection H as <- <- <- <-. eapply Co_arr; eauto. }
  destruct (Z.eqb_spec c 123) as [->|]. { destruct (after st) eqn:Ha; [|discriminate]. injection H as <- <- <- <-. eapply Co_obj; eauto. }
  destruct (Z.eqb_spec c 93) as [->|].
  { destruct st; try discriminate; destruct stk; try discriminate; injection H as <- <- <- <-; eapply Co_earr; eauto. }
  destruct (Z.eqb_spec c 125) as [->|].
  { destruct st; try discriminate; destruct stk; try discriminate; injection H as <- <- <- <-; eapply Co_eobj; eauto. }
  destruct (Z.eqb_spec c 44) as [->|]. { destruct st; try discriminate; injection H as <- <- <- <-; eapply Co_comma; eauto. }
  destruct (Z.eqb_spec c 58) as [->|]. { destruct st; try discriminate; injection H as <- <- <- <-; eapply Co_colon; eauto. }
  destruct (Z.eqb_spec c 34) as [->|].
  { assert (K : st = PObjInit \/ st = PMComma -> (let* (s, r') := parse_string (S (List.length b)) b in Ok (PKey, stk, Some (TkKey s), r')) = Ok (st', stk', tk, r) ->
       consumed st stk (34 :: b) st' stk' tk r).
    { intros Hst H1. apply bind_Ok in H1 as ((s' & r') & H1 & H2). apply parse_string_sound in H1 as (t & -> & Ht); auto.
      assert (PKey = st' /\ stk = stk' /\ Some (TkKey s') = tk /\ r' = r) as (<- & <- & <- & ->) by (repeat split; congruence).
      apply Co_key; auto. }
    assert (W : match after st with Some st'0 => let* (t, r) := (let* (s, r') := parse_string (S (List.length b)) b in Ok (TkString s, r')) in Ok (st'0, stk, Some t, r) | None => Err (handle_error st) end = Ok (st', stk', tk, r) ->
       consumed st stk (34 :: b) st' stk' tk r).
    { intros H1. destruct (after st) as [s1|] eqn:Ha; [|discriminate].
      apply bind_Ok in H1 as ((t1 & r0) & H1 & H2). apply bind_Ok in H1 as ((s' & r') & H1 & H3).
      apply parse_string_sound in H1 as (t & -> & Ht); auto.
      assert (t1 = TkString s' /\ r0 = r' /\ s1 = st' /\ stk = stk' /\ Some t1 = tk /\ r0 = r) as (-> & -> & -> & <- & <- & ->)
        by (repeat split; congruence).
      replace (34 :: t ++ 34 :: r) with ((34 :: t ++ [34]) ++ r) by (cbn [app]; rewrite <- app_assoc; reflexivity).
      eapply Co_val with (j := JStr s'); eauto. constructor; auto. }
    destruct st; try (apply K; [auto|exact H]); apply W; exact H. }
  destruct (Z.eqb_spec c 110) as [->|]. { eapply VL; [| |exact H]; [apply Vt_null|reflexivity]. }
  destruct (Z.eqb_spec c 116) as [->|]. { eapply VL; [| |exact H]; [apply Vt_true|reflexivity]. }
  destruct (Z.eqb_spec c 102) as [->|]. { eapply VL; [| |exact H]; [apply Vt_false|reflexivity]. }
  apply VN; exact H.
Qed.

Lemma after_cases st st' : after st = Some st' ->
  st = PStart \/ st = PColon \/ st = PArrInit \/ st = PEComma.
Proof. destruct st; cbn; intros; try discriminate; auto. Qed.

Definition SV (n : nat) := forall st st' stk b ts, (List.length b <= n)%nat -> bytes_ok b ->
  after st = Some st' -> P st stk b = (ts, None) ->
  (exists w t rest j ts', b = w ++ t ++ rest /\ ws w /\ value_text true j t /\ ts = tokens j ++ ts' /\ contS st' stk rest ts') \/
  (exists w rest s stk' ts', st = PArrInit /\ b = w ++ 93 :: rest /\ ws w /\ stk = s :: stk' /\
      ts = TkEndArray :: ts' /\ contS (unframe s) stk' rest ts').
Definition SA (n : nat) := forall st s stk b ts, (List.length b <= n)%nat -> bytes_ok b ->
  st = PArrInit \/ st = PEComma -> P st (s :: stk) b = (ts, None) ->
  exists l t rest ts', (items_text true l t \/ (st = PArrInit /\ l = [] /\ ws t)) /\ b = t ++ 93 :: rest /\
     ts = concat (map tokens l) ++ TkEndArray :: ts' /\ contS (unframe s) stk rest ts'.
Definition SM (n : nat) := forall st s stk b ts, (List.length b <= n)%nat -> bytes_ok b ->
  st = PObjInit \/ st = PMComma -> P st (s :: stk) b = (ts, None) ->
  exists l t rest ts', (members_text true l t \/ (st = PObjInit /\ l = [] /\ ws t)) /\ b = t ++ 125 :: rest /\
     ts = concat (map (fun kv => TkKey (fst kv) :: tokens (snd kv)) l) ++ TkEndObject :: ts' /\ contS (unframe s) stk rest ts'.

Lemma value_text_nonempty lax j t : value_text lax j t -> (1 <= List.length t)%nat.
Proof.
  destruct 1; cbn [List.length]; try lia; try (cbn; lia).
  destruct (number_hd _ (number_fits_text _ H)) as (c & r & -> & _). cbn; lia.
Qed.

Lemma sound_all n : SV n /\ SA n /\ SM n.
Proof.
  induction n as [n IH] using (well_founded_induction lt_wf).
  assert (HV : SV n).
  { intros st st' stk b ts Hn Hb Ha Hp.
    destruct (P_inv _ _ _ _ Hp) as (w & b' & st1 & stk1 & tk & r & ts1 & -> & Hw & Hs & -> & Hc).
    apply bytes_ok_app in Hb as [_ Hb]. pose proof (step_len _ _ _ _ _ _ _ Hs) as Hl. rewrite app_length in Hn.
    apply step_inv in Hs; auto.
    inversion Hs; subst; clear Hs.
    - destruct Hc as [(? & _)|(_ & Hc)]; [discriminate|].
      destruct (IH (List.length r) ltac:(lia)) as (_ & HA & _).
      inversion Hb as [|? ? _ Hb']; subst.
      destruct (HA PArrInit _ _ _ _ (le_n _) Hb' (or_introl eq_refl) Hc) as (l & t & rest & ts' & Hit & -> & -> & Hc').
      left. exists w, (91 :: t ++ [93]), rest, (JArr l), ts'. repeat split; auto.
      + cbn [app]. rewrite <- app_assoc. reflexivity.
      + destruct Hit as [Hit|(_ & -> & Hws)]; [apply Vt_arr; auto|apply Vt_arr0; auto].
      + cbn [ocons tokens app]. rewrite <- app_assoc. reflexivity.
      + rewrite (unframe_frame _ _ Ha) in Hc'. exact Hc'.
    - destruct Hc as [(? & _)|(_ & Hc)]; [discriminate|].
      destruct (IH (List.length r) ltac:(lia)) as (_ & _ & HM).
      inversion Hb as [|? ? _ Hb']; subst.
      destruct (HM PObjInit _ _ _ _ (le_n _) Hb' (or_introl eq_refl) Hc) as (l & t & rest & ts' & Hit & -> & -> & Hc').
      left. exists w, (123 :: t ++ [125]), rest, (JObj l), ts'. repeat split; auto.
      + cbn [app]. rewrite <- app_assoc. reflexivity.
      + destruct Hit as [Hit|(_ & -> & Hws)]; [apply Vt_obj; auto|apply Vt_obj0; auto].
      + cbn [ocons tokens app]. rewrite <- app_assoc. reflexivity.
      + rewrite (unframe_frame _ _ Ha) in Hc'. exact Hc'.
    - match goal with H : _ = PArrInit \/ _ = PElem |- _ => destruct H as [->| ->] end; [|discriminate].
      right. exists w, r, s, stk1, ts1. repeat split; auto.
    - match goal with H : _ = PObjInit \/ _ = PMember |- _ => destruct H as [->| ->] end; discriminate.
    - match goal with H : _ \/ _ |- _ => destruct H as [[-> ->]|[-> ->]] end; discriminate.
    - discriminate.
    - match goal with H : _ = PObjInit \/ _ = PMComma |- _ => destruct H as [->| ->] end; discriminate.
    - left. exists w, t, r, j, ts1. assert (st1 = st') by congruence. subst.
      repeat split; auto. match goal with H : tokens _ = _ |- _ => rewrite H end. reflexivity. }
  split; [exact HV|]. split.
  - intros st s stk b ts Hn Hb Hst Hp.
    assert (Ha : after st = Some PElem) by (destruct Hst as [->| ->]; reflexivity).
    destruct (HV st PElem (s :: stk) b ts Hn Hb Ha Hp) as
      [(w & t & rest & j & ts' & -> & Hw & Hj & -> & Hc)|(w & rest & s' & stk' & ts' & -> & -> & Hw & Es & -> & Hc)].
    2: { injection Es as <- <-. exists [], w, rest, ts'. repeat split; auto. }
    destruct Hc as [(? & _)|(_ & Hc)]; [discriminate|].
    rewrite !bytes_ok_app in Hb. destruct Hb as (_ & _ & Hb).
    pose proof (value_text_nonempty _ _ _ Hj) as Nt. rewrite !app_length in Hn.
    destruct (P_inv _ _ _ _ Hc) as (w2 & b' & st1 & stk1 & tk & r & ts1 & -> & Hw2 & Hs & -> & Hc').
    apply bytes_ok_app in Hb as [_ Hb]. pose proof (step_len _ _ _ _ _ _ _ Hs) as Hl.
    apply step_inv in Hs; auto. rewrite app_length in Hn.
    inversion Hs; subst; clear Hs; try discriminate;
      repeat match goal with H : _ \/ _ |- _ => destruct H as [H|H] end;
      repeat match goal with H : _ /\ _ |- _ => destruct H end; subst; try discriminate;
      match goal with H : st = _ |- _ => subst st | _ => idtac end.

    all: try match goal with H : _ :: _ = _ :: _ |- _ => injection H as <- <- end.
    all: try match goal with H : contS PEComma _ _ _ |- _ =>
        destruct H as [(? & _)|(_ & H)]; [discriminate|];
        destruct (IH (List.length r) ltac:(lia)) as (_ & HA & _);
        inversion Hb as [|? ? _ Hb']; subst;
        destruct (HA PEComma _ _ _ _ (le_n _) Hb' (or_intror eq_refl) H) as (l & t2 & rest & ts2 & Hit & -> & -> & Hc2);
        destruct Hit as [Hit|(? & _)]; [|discriminate];
        exists (j :: l), (w ++ t ++ w2 ++ 44 :: t2), rest, ts2;
        (split; [left; apply It_cons; auto|]);
        (split; [repeat (rewrite <- ?app_assoc; cbn [app]); reflexivity|]);
        (split; [cbn [ocons map concat]; rewrite <- app_assoc; reflexivity | exact Hc2])
      end.
    all: exists [j], (w ++ t ++ w2), r, ts1;
        (split; [left; apply It_one; auto|]);
        (split; [repeat (rewrite <- ?app_assoc; cbn [app]); reflexivity|]);
        (split; [cbn [ocons map concat]; rewrite app_nil_r; reflexivity | auto]).
  - intros st s stk b ts Hn Hb Hst Hp.
    destruct (P_inv _ _ _ _ Hp) as (w1 & b' & st1 & stk1 & tk & r & ts1 & -> & Hw1 & Hs & -> & Hc).
    apply bytes_ok_app in Hb as [_ Hb]. rewrite app_length in Hn.
    pose proof (step_len _ _ _ _ _ _ _ Hs) as Hl. apply step_inv in Hs; auto.
    inversion Hs; subst; clear Hs;
      try (exfalso; destruct Hst as [->| ->]; discriminate);
      try (exfalso; destruct Hst; discriminate);
      try (exfalso; destruct Hst as [->| ->]; match goal with H : _ \/ _ |- _ => destruct H as [H|H]; (discriminate || (destruct H; discriminate)) end).
    + (* } *)
      try match goal with H : _ :: _ = _ :: _ |- _ => injection H as <- <- end.
      match goal with H : st = PObjInit \/ st = PMember |- _ => destruct H as [->| ->] end; [|destruct Hst; discriminate].
      exists [], w1, r, ts1. repeat split; auto.
    + (* a key *)
      destruct Hc as [(? & _)|(_ & Hc)]; [discriminate|].
      inversion Hb as [|? ? _ Hb']; subst. apply bytes_ok_app in Hb' as [_ Hb']. inversion Hb' as [|? ? _ Hb2]; subst.
      cbn [List.length] in Hn. rewrite app_length in Hn. cbn [List.length] in Hn.
      destruct (P_inv _ _ _ _ Hc) as (w2 & b2 & st2 & stk2 & tk2 & r2 & ts2 & -> & Hw2 & Hs2 & -> & Hc2).
      apply bytes_ok_app in Hb2 as [_ Hb2]. rewrite app_length in Hn.
      pose proof (step_len _ _ _ _ _ _ _ Hs2) as Hl2. apply step_inv in Hs2; auto.
      inversion Hs2; subst; clear Hs2; try discriminate;
        try (exfalso; match goal with H : _ \/ _ |- _ => destruct H as [H|H]; (discriminate || (destruct H; discriminate)) end; fail).
      destruct Hc2 as [(? & _)|(_ & Hc2)]; [discriminate|].
      inversion Hb2 as [|? ? _ Hb3]; subst. cbn [List.length] in Hn.
      destruct (IH (List.length r2) ltac:(lia)) as (HV2 & _).
      destruct (HV2 PColon PMember (s :: stk) r2 ts2 (le_n _) Hb3 eq_refl Hc2) as
        [(w3 & t3 & rest & j & ts' & -> & Hw3 & Hj & -> & Hc3)|(w3 & rest & s' & stk' & ts' & ? & _)]; [|discriminate].
      destruct Hc3 as [(? & _)|(_ & Hc3)]; [discriminate|].
      rewrite !bytes_ok_app in Hb3. destruct Hb3 as (_ & _ & Hb4). rewrite !app_length in Hn.
      destruct (P_inv _ _ _ _ Hc3) as (w4 & b5 & st5 & stk5 & tk5 & r5 & ts5 & -> & Hw4 & Hs5 & -> & Hc5).
      apply bytes_ok_app in Hb4 as [_ Hb5]. rewrite app_length in Hn.
      pose proof (step_len _ _ _ _ _ _ _ Hs5) as Hl5. apply step_inv in Hs5; auto.
      inversion Hs5; subst; clear Hs5; try discriminate.
      * exfalso. match goal with H : PMember = _ \/ _ |- _ => destruct H; discriminate end.
      * try match goal with H : _ :: _ = _ :: _ |- _ => injection H as <- <- end.
        exists [(s0, j)], (w1 ++ 34 :: t ++ 34 :: w2 ++ 58 :: w3 ++ t3 ++ w4), r5, ts5.
        split; [left; apply Mt_one; auto|].
        split; [repeat (rewrite <- ?app_assoc; cbn [app]); reflexivity|].
        split; [cbn [ocons map concat fst snd app]; rewrite app_nil_r; reflexivity | auto].
      * match goal with H : (PMember = _ /\ _) \/ _ |- _ => destruct H as [[? ?]|[? ->]]; [discriminate|] end.
        destruct Hc5 as [(? & _)|(_ & Hc5)]; [discriminate|].
        destruct (IH (List.length r5) ltac:(lia)) as (_ & _ & HM).
        inversion Hb5 as [|? ? _ Hb6]; subst.
        destruct (HM PMComma _ _ _ _ (le_n _) Hb6 (or_intror eq_refl) Hc5) as (l & t6 & rest & ts6 & Hit & -> & -> & Hc6).
        destruct Hit as [Hit|(? & _)]; [|discriminate].
        exists ((s0, j) :: l), (w1 ++ 34 :: t ++ 34 :: w2 ++ 58 :: w3 ++ t3 ++ w4 ++ 44 :: t6), rest, ts6.
        split; [left; apply Mt_cons; auto|].
        split; [repeat (rewrite <- ?app_assoc; cbn [app]); reflexivity|].
        split; [cbn [ocons map concat fst snd app]; rewrite <- app_assoc; reflexivity | auto].
      * exfalso. match goal with H : PMember = _ \/ _ |- _ => destruct H; discriminate end.
Qed.

Lemma cstr_ok t : bytes_ok t -> bytes_ok (cstr t).
Proof.
  induction 1 as [|c t Hc Ht IH]; [constructor|]. cbn [cstr]. destruct (c =? 0); [constructor|]. constructor; auto.
Qed.

Theorem tokenize_sound t ts : bytes_ok t -> tokenize t = (ts, None) ->
  exists j, json_text_lax j (cstr t) /\ ts = tokens j.
Proof.
  intros Hb H. unfold tokenize in H. change (P PStart [] (cstr t) = (ts, None)) in H.
  destruct (sound_all (List.length (cstr t))) as (HV & _).
  destruct (HV PStart PFinish [] (cstr t) ts (le_n _) (cstr_ok _ Hb) eq_refl H) as
    [(w & v & rest & j & ts' & E & Hw & Hj & -> & Hc)|(w & rest & s & stk' & ts' & ? & _)]; [|discriminate].
  destruct Hc as [(_ & Hr & ->)|(? & _)]; [|congruence].
  exists j. split; [|rewrite app_nil_r; reflexivity].
  exists w, v, rest. auto.
Qed.
