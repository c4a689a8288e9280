(** The reader run call by call delivers the tokens [Json.tokenize] computes. *)
From Verif Require Import Base Json JsonFacts JsonPull JsonPullSpec.

(** What is left to read of a text: the tokens [l] and the error [e] behind them. *)
Definition rem (r : reader) (l : list token) (e : option error) : Prop :=
  lost r = false /\ (
  (st r = PFinish /\ buf r = [] /\ l = [] /\ e = None) \/
  (st r <> PFinish /\ parse (S (List.length (buf r))) (st r) (stk r) (buf r) = (l, e))).

Lemma finish_token s k b k' t r : step s k b = Ok (PFinish, k', t, r) -> exists t', t = Some t'.
Proof.
  unfold step. intros H.
  assert (V : forall K, match after s with Some st' => let* (t, r) := K in Ok (st', k, Some t, r) | None => Err (handle_error s) end = Ok (PFinish, k', t, r) -> exists t', t = Some t').
  { intros K. destruct (after s); [|discriminate]. destruct K as [[t0 r0]| |]; cbn [bind]; [|discriminate|discriminate]. intros E. injection E as _ _ <- _. eauto. }
  destruct b as [|c b]; [now apply (V _ H)|].
  destruct (c =? 91). { destruct (after s); [injection H as _ _ <- _; eauto|discriminate H]. }
  destruct (c =? 123). { destruct (after s); [injection H as _ _ <- _; eauto|discriminate H]. }
  destruct (c =? 93). { destruct s, k; try discriminate H; injection H as _ _ <- _; eauto. }
  destruct (c =? 125). { destruct s, k; try discriminate H; injection H as _ _ <- _; eauto. }
  destruct (c =? 44). { destruct s; discriminate H. }
  destruct (c =? 58). { destruct s; discriminate H. }
  destruct (c =? 34).
  { assert (KK : forall K, bind K (fun '(s0, r') => Ok (PKey, k, Some (TkKey s0), r')) = Ok (PFinish, k', t, r) -> exists t', t = Some t').
    { intros K. destruct K as [[? ?]| |]; cbn [bind]; discriminate. }
    destruct s; cbn [after] in *; first [discriminate H|now apply (V _ H)|now apply (KK _ H)]. }
  destruct (c =? 110); [now apply (V _ H)|]. destruct (c =? 116); [now apply (V _ H)|]. destruct (c =? 102); now apply (V _ H).
Qed.

Lemma next_spec fuel : forall r l e, (List.length (buf r) < fuel)%nat -> rem r l e -> cur r = None ->
  match l with
  | t :: l' => exists r', next fuel r = (Ok tt, r') /\ cur r' = Some t /\ rem r' l' e
  | [] => match e with
          | None => next fuel r = (Ok tt, Rd PFinish [] [] None false)
          | Some x => exists r', next fuel r = (Err x, r')
          end
  end.
Proof.
  induction fuel as [|f IH]; intros r l e L [Lo R] C; [lia|]. cbn [next]. rewrite Lo.
  destruct R as [(S0 & B & -> & ->)|[S0 P]].
  { rewrite B, S0, C. reflexivity. }
  cbn [parse] in P. destruct (buf r) as [|b0 b] eqn:B.
  { injection P as <- <-. destruct (st r); try (eexists; reflexivity). contradiction. }
  destruct (step (st r) (stk r) (skip_ws (b0 :: b))) as [[[[s k] t] b']|x|w] eqn:St.
  - assert (Lb : (List.length b' < List.length (b0 :: b))%nat).
    { apply step_len in St. pose proof (skip_ws_len (b0 :: b)). lia. }
    destruct (Bool.bool_dec (match s with PFinish => true | _ => false end) true) as [Fin|NF].
    + assert (s = PFinish) by (destruct s; congruence). subst s. destruct (finish_token _ _ _ _ _ _ St) as [t' ->].
      destruct (skip_ws b') eqn:W.
      * injection P as <- <-. eexists. split; [reflexivity|]. split; [reflexivity|]. split; [reflexivity|]. left. auto.
      * injection P as <- <-. eexists. reflexivity.
    + assert (Ns : s <> PFinish) by (intros ->; now apply NF).
      assert (P' : (let (ts, e0) := parse (List.length (b0 :: b)) s k b' in (match t with Some t => t :: ts | None => ts end, e0)) = (l, e)) by (destruct s; try exact P; contradiction).
      rewrite (parse_fuel _ (S (List.length b')) s k b') in P' by lia. clear P.
      destruct (parse (S (List.length b')) s k b') as [ts e0] eqn:Pb.
      destruct t as [t|].
      * injection P' as <- <-. exists (Rd s k b' (Some t) false). split; [destruct s; try reflexivity; contradiction|].
        split; [reflexivity|]. split; [reflexivity|]. right. cbn [st stk buf]. auto.
      * injection P' as <- <-.
        assert (E : forall X Y Z, match s with PFinish => X | _ => Y end = Y :> (res unit * reader) \/ Z = s) by (intros; destruct s; auto; contradiction).
        replace (match s with PFinish => _ | _ => _ end) with (next f (Rd s k b' (cur r) false)) by (destruct s; try reflexivity; contradiction).
        apply IH; cbn [buf cur]; [cbn [List.length] in *; lia| |exact C]. split; [reflexivity|]. right. cbn [st stk buf]. auto.
  - injection P as <- <-. eexists. reflexivity.
  - injection P as <- <-. eexists. reflexivity.
Qed.

(** The reader at a cursor. *)
Definition at_cursor (r : reader) (k : cursor) : Prop :=
  if seen k then exists t l, coming k = t :: l /\ cur r = Some t /\ rem r l (broken k)
  else cur r = None /\ rem r (coming k) (broken k).
Lemma open_at text ts e : tokenize text = (ts, e) -> at_cursor (open_reader text) (Cur ts false e).
Proof. intros H. split; [reflexivity|]. split; [reflexivity|]. right. split; [discriminate|exact H]. Qed.
Lemma rem_with r c l e : rem r l e -> rem (Rd (st r) (stk r) (buf r) c (lost r)) l e.
Proof. intros H. exact H. Qed.

Lemma peek_spec r t l p e : at_cursor r (Cur (t :: l) p e) -> exists r', peek r = (Ok (Some t), r') /\ at_cursor r' (Cur (t :: l) true e) /\ at_cursor (eat r') (Cur l false e).
Proof.
  unfold at_cursor. cbn [seen coming broken]. intros H.
  assert (G : exists r', peek r = (Ok (Some t), r') /\ cur r' = Some t /\ rem r' l e).
  { destruct p.
    - destruct H as (t0 & l0 & E & C & R). injection E as <- <-. exists r. unfold peek. rewrite C. auto.
    - destruct H as [C R]. pose proof (next_spec (S (List.length (buf r))) r (t :: l) e (Nat.lt_succ_diag_r _) R C) as (r' & N & C' & R').
      exists r'. unfold peek. rewrite C, N, C'. auto. }
  destruct G as (r' & P & C & R). exists r'. split; [exact P|]. split; [exists t, l; auto|]. split; [reflexivity|exact R].
Qed.
Lemma peek_over r : at_cursor r (Cur [] false None) -> exists r', peek r = (Ok None, r') /\ at_cursor r' (Cur [] false None).
Proof.
  intros [C R]. cbn [coming broken] in R. pose proof (next_spec (S (List.length (buf r))) r [] None (Nat.lt_succ_diag_r _) R C) as N. cbn iota in N.
  eexists. unfold peek. rewrite C, N. split; [reflexivity|]. split; [reflexivity|]. split; [reflexivity|]. left. auto.
Qed.
Lemma peek_broken r e : at_cursor r (Cur [] false (Some e)) -> exists r', peek r = (Err e, r').
Proof.
  intros [C R]. cbn [coming broken] in R. pose proof (next_spec (S (List.length (buf r))) r [] (Some e) (Nat.lt_succ_diag_r _) R C) as (r' & N).
  exists r'. unfold peek. now rewrite C, N.
Qed.

(** Calls that read. *)
Definition reads (c : call) : Prop := ~ In c [Complete; EatToken; GetEnd].
Ltac unfold_calls := cbn [do_call] in *; unfold get_null, get_start_array, get_end_array, get_null_pred, get_bool, get_string, get_start_object, get_key, maybe_get_key, get_end_object_pred, get_end_object, get_start_array_pred, get_end_array_pred, take.
Lemma call_token c r t l p e : reads c -> at_cursor r (Cur (t :: l) p e) ->
  exists a r' k', says c (Cur (t :: l) p e) a k' /\ do_call c r = (a, r') /\ at_cursor r' k'.
Proof.
  intros Rc H. destruct (peek_spec _ _ _ _ _ H) as (r' & P & A1 & A2).
  destruct (wanted c t) as [a|] eqn:W.
  - destruct (match c with PeekToken => true | _ => false end) eqn:Ep.
    + destruct c; try discriminate Ep. exists (Ok (Token (Some t))), r', (Cur (t :: l) true e). split; [apply says_peek|].
      split; [cbn [do_call]; now rewrite P|exact A1].
    + exists (Ok a), (eat r'), (Cur l false e). split; [apply says_wanted; [exact W|intros ->; discriminate Ep]|]. split; [|exact A2].
      destruct c, t; cbn [wanted] in W; try discriminate W; try discriminate Ep; injection W as <-; unfold_calls; now rewrite P.
  - exists (otherwise c), r', (Cur (t :: l) true e). split; [now apply says_other|]. split; [|exact A1].
    destruct c; try (exfalso; apply Rc; cbn [In]; tauto); destruct t; cbn [wanted] in W; try discriminate W; unfold_calls; now rewrite P.
Qed.
Lemma call_over c r : reads c -> at_cursor r (Cur [] false None) ->
  exists r', do_call c r = (otherwise c, r') /\ at_cursor r' (Cur [] false None).
Proof.
  intros Rc H. destruct (peek_over _ H) as (r' & P & A). exists r'. split; [|exact A].
  destruct c; try (exfalso; apply Rc; cbn [In]; tauto); unfold_calls; now rewrite P.
Qed.
Lemma call_broken c r e : reads c -> at_cursor r (Cur [] false (Some e)) -> exists r', do_call c r = (Err e, r').
Proof.
  intros Rc H. destruct (peek_broken _ _ H) as (r' & P). exists r'.
  destruct c; try (exfalso; apply Rc; cbn [In]; tauto); unfold_calls; now rewrite P.
Qed.
(** Finished: nothing to come, or the last token of the document is the one looked at. *)
Lemma parse_some f s k b l e : s <> PFinish -> parse f s k b = (l, e) -> l <> [] \/ e <> None.
Proof.
  revert s k b l e. induction f as [|f IH]; intros s k b l e Ns P; cbn [parse] in P; [injection P as <- <-; right; discriminate|].
  destruct b as [|b0 b]; [injection P as <- <-; right; discriminate|].
  destruct (step s k (skip_ws (b0 :: b))) as [[[[s' k'] t] b']|x|w] eqn:St; [|injection P as <- <-; right; discriminate|injection P as <- <-; right; discriminate].
  destruct (Bool.bool_dec (match s' with PFinish => true | _ => false end) true) as [Fin|NF].
  - assert (s' = PFinish) by (destruct s'; congruence). subst s'. destruct (finish_token _ _ _ _ _ _ St) as [t' ->].
    destruct (skip_ws b'); injection P as <- <-; [left|right]; discriminate.
  - assert (Ns' : s' <> PFinish) by (intros ->; now apply NF).
    assert (P' : (let (ts, e0) := parse f s' k' b' in (match t with Some t => t :: ts | None => ts end, e0)) = (l, e)) by (destruct s'; try exact P; contradiction).
    destruct (parse f s' k' b') as [ts e0] eqn:Pb. injection P' as <- <-. destruct t; [left; discriminate|]. eapply IH; eauto.
Qed.
Lemma rem_complete r l e : rem r l e -> complete r = true <-> l = [] /\ e = None.
Proof.
  intros [_ [(S0 & _ & -> & ->)|[S0 P]]]; unfold complete.
  - rewrite S0. tauto.
  - destruct (parse_some _ _ _ _ _ _ S0 P); destruct (st r); try contradiction; (split; [discriminate|]); intros [-> ->]; contradiction.
Qed.
Lemma call_still c r k : In c [Complete; EatToken; GetEnd] -> at_cursor r k -> (seen k = true -> coming k <> []) ->
  exists a r' k', says c k a k' /\ do_call c r = (a, r') /\ at_cursor r' k'.
Proof.
  destruct k as [l p e]. cbn [seen coming]. intros Ic H Sn. cbn [In] in Ic. destruct Ic as [<-|[<-|[<-|[]]]]; cbn [do_call].
  - exists (Ok (Flag (complete r))), r, (Cur l p e). split; [|split; [reflexivity|exact H]].
    assert (G : (complete r = true /\ e = None /\ (l = [] \/ p = true /\ exists t, l = [t])) \/ (complete r = false /\ (e <> None \/ (2 <= List.length l)%nat \/ l <> [] /\ p = false))).
    { destruct p; unfold at_cursor in H; cbn [seen coming broken] in H.
      - destruct H as (t & l0 & -> & C & R). pose proof (rem_complete _ _ _ R) as Q. destruct (complete r).
        + destruct Q as [Q _]. destruct (Q eq_refl) as [-> ->]. left. split; [reflexivity|]. split; [reflexivity|]. right. eauto.
        + right. split; [reflexivity|]. destruct e; [left; discriminate|]. right. left. destruct l0; [destruct Q as [_ Q]; discriminate (Q (conj eq_refl eq_refl))|cbn [List.length]; lia].
      - destruct H as [C R]. pose proof (rem_complete _ _ _ R) as Q. destruct (complete r).
        + destruct Q as [Q _]. destruct (Q eq_refl) as [-> ->]. left. auto.
        + right. split; [reflexivity|]. destruct e; [left; discriminate|]. right. right. split; [|reflexivity]. intros ->. destruct Q as [_ Q]. discriminate (Q (conj eq_refl eq_refl)). }
    destruct G as [(-> & -> & G)|(-> & G)]; [now apply says_complete|now apply says_incomplete].
  - exists (Ok Done), (eat r). destruct p.
    + destruct l as [|t l]; [now destruct (Sn eq_refl)|]. exists (Cur l false e). split; [apply says_eat_seen|]. split; [reflexivity|].
      destruct H as (t0 & l0 & E & C & R). cbn [coming] in E. injection E as <- <-. split; [reflexivity|exact R].
    + exists (Cur l false e). split; [apply says_eat|]. split; [reflexivity|]. destruct H as [C R]. split; [reflexivity|exact R].
  - unfold get_end. destruct p.
    + destruct H as (t & l0 & E & C & R). cbn [coming] in E. subst l. exists (Err E_expected_end), r, (Cur (t :: l0) true e). split; [apply says_no_end; left; discriminate|].
      rewrite C. split; [reflexivity|]. exists t, l0. auto.
    + destruct H as [C R]. cbn [coming broken] in R. pose proof (rem_complete _ _ _ R) as Q. rewrite C. destruct (complete r).
      * destruct Q as [Q _]. destruct (Q eq_refl) as [-> ->]. exists (Ok Done), r, (Cur [] false None). split; [apply says_end|]. split; [reflexivity|]. split; assumption.
      * exists (Err E_expected_end), r, (Cur l false e). split; [|split; [reflexivity|split; assumption]]. apply says_no_end.
        destruct l; [|left; discriminate]. destruct e; [right; discriminate|]. destruct Q as [_ Q]. discriminate (Q (conj eq_refl eq_refl)).
Qed.
Lemma at_seen r k : at_cursor r k -> seen k = true -> coming k <> [].
Proof. unfold at_cursor. intros H E. rewrite E in H. destruct H as (t & l & -> & _). discriminate. Qed.
Lemma says_unbroken c k a k' : says c k a k' -> broken k = None -> broken k' = None.
Proof. intros H. destruct H; cbn [broken]; auto. Qed.

Lemma still_dec c : {In c [Complete; EatToken; GetEnd]} + {reads c}.
Proof. unfold reads. destruct c; first [left; cbn [In]; tauto|right; cbn [In]; intros X; repeat (destruct X as [X|X]; [discriminate X|]); exact X]. Qed.
Lemma run_talk l : forall r k, at_cursor r k -> exists answers more, talk l k answers /\ run l r = answers ++ more /\ (broken k = None -> more = []).
Proof.
  induction l as [|c l IH]; intros r k A.
  { exists [], []. split; [apply talk_none|]. auto. }
  cbn [run].
  assert (Go : forall a r' k', says c k a k' -> (coming k <> [] \/ broken k = None \/ In c [Complete; EatToken; GetEnd]) -> do_call c r = (a, r') -> at_cursor r' k' ->
    exists answers more, talk (c :: l) k answers /\ (let (a, r') := do_call c r in a :: run l r') = answers ++ more /\ (broken k = None -> more = [])).
  { intros a r' k' Sy Cond D A'. destruct (IH r' k' A') as (an & more & T & Rn & M). exists (a :: an), more.
    split; [eapply talk_call; eauto|]. split; [rewrite D, Rn; reflexivity|]. intros B. apply M. eapply says_unbroken; eauto. }
  destruct (still_dec c) as [Ic|Rc].
  - destruct (call_still c r k Ic A (at_seen _ _ A)) as (a & r' & k' & Sy & D & A'). eapply Go; eauto.
  - destruct k as [ts p e]. destruct ts as [|t ts].
    + destruct p; [now destruct (at_seen _ _ A eq_refl)|]. destruct e as [e|].
      * destruct (call_broken c r e Rc A) as (r' & D). rewrite D. exists [Err e], (run l r').
        split; [eapply talk_error; [now apply says_broken|intros ->; apply Rc; cbn [In]; tauto]|]. split; [reflexivity|]. discriminate.
      * destruct (call_over c r Rc A) as (r' & D & A'). eapply (Go (otherwise c) r'); [now apply says_over|right; now left|exact D|exact A'].
    + destruct (call_token c r t ts p e Rc A) as (a & r' & k' & Sy & D & A'). eapply Go; eauto. left. discriminate.
Qed.

(** [says] and [talk] leave no choice. *)
Lemma says_det c k a1 k1 : says c k a1 k1 -> forall a2 k2, says c k a2 k2 -> a1 = a2 /\ k1 = k2.
Proof.
  intros H1 a2 k2 H2. destruct H1; inversion H2; subst;
    repeat match goal with
    | H : ~ In _ _ |- _ => cbn [In] in H
    | H : exists _, _ |- _ => destruct H
    | H : _ \/ _ |- _ => destruct H
    | H : _ /\ _ |- _ => destruct H
    end; subst; cbn [wanted List.length] in *;
    try discriminate; try (exfalso; tauto); try (split; congruence); try (exfalso; congruence); try lia.
Qed.
Lemma talk_det l k a1 : talk l k a1 -> forall a2, talk l k a2 -> a1 = a2.
Proof.
  intros H. induction H as [k|c l e k Sy Ne|c l k a k1 r Sy Cond T IH]; intros a2 H2.
  - inversion H2. reflexivity.
  - inversion H2 as [|c0 l0 e0 k0 Sy0 Ne0|c0 l0 k0 a0 k2 r0 Sy0 Cond0 T0]; subst; [reflexivity|]. exfalso.
    cbn [coming broken] in Cond0. destruct Cond0 as [X|[X|X]]; [now apply X|discriminate X|].
    destruct (says_det _ _ _ _ Sy _ _ Sy0) as [<- _]. cbn [In] in X. destruct X as [<-|[<-|[<-|[]]]]; [inversion Sy; subst; cbn [In] in *; tauto|inversion Sy; subst; cbn [In] in *; tauto|now apply Ne].
  - inversion H2 as [|c0 l0 e0 k0 Sy0 Ne0|c0 l0 k0 a0 k2 r0 Sy0 Cond0 T0]; subst.
    + exfalso. cbn [coming broken] in Cond. destruct Cond as [X|[X|X]]; [now apply X|discriminate X|].
      cbn [In] in X. destruct X as [<-|[<-|[<-|[]]]]; [inversion Sy0; subst; cbn [In] in *; tauto|inversion Sy0; subst; cbn [In] in *; tauto|now apply Ne0].
    + destruct (says_det _ _ _ _ Sy _ _ Sy0) as [<- <-]. f_equal. now apply IH.
Qed.
