(** * The JSON string writer (include/eosio/to_json.hpp:18-63). *)
From Verif Require Import Base Hex Utf8 Json JsonSpec JsonStrFacts JsonFacts.

(** ** Specification: the contents with every byte that does not belong to a well
    formed UTF-8 character replaced by '?', scanning from the left. *)
Definition starts_with_char (s : bytes) : Prop := exists cp r, scalar cp /\ s = utf8_enc cp ++ r.
Inductive sanitized : bytes -> bytes -> Prop :=
| San_nil : sanitized [] []
| San_char cp s t : scalar cp -> sanitized s t -> sanitized (utf8_enc cp ++ s) (utf8_enc cp ++ t)
| San_bad c s t : ~ starts_with_char (c :: s) -> sanitized s t -> sanitized (c :: s) (63 :: t).
(** Printable: no control character, no DEL. *)
Definition printable (t : bytes) : Prop := Forall (fun c => 32 <= c /\ c <> 127) t.

Lemma utf8_enc_inj cp cp' r r' : scalar cp -> scalar cp' -> utf8_enc cp ++ r = utf8_enc cp' ++ r' -> utf8_enc cp = utf8_enc cp' /\ r = r'.
Proof.
  intros H H' E.
  assert (L : List.length (utf8_enc cp) = List.length (utf8_enc cp')).
  { pose proof (validate_complete cp r H) as V. rewrite E, validate_complete in V by auto. congruence. }
  pose proof (firstn_app_all (utf8_enc cp) r) as F1. pose proof (firstn_app_all (utf8_enc cp') r') as F2.
  pose proof (skipn_app_all (utf8_enc cp) r) as F3. pose proof (skipn_app_all (utf8_enc cp') r') as F4.
  rewrite E, L in F1, F3. split; congruence.
Qed.
Lemma sanitized_fun s t : sanitized s t -> forall t', sanitized s t' -> t = t'.
Proof.
  induction 1 as [|cp s t Hcp Hs IH|c s t Hb Hs IH]; intros t' H'.
  - inversion H' as [|cp' s' t'' ? ? E|]; auto. exfalso. destruct (utf8_enc cp') eqn:E'; [eapply utf8_enc_nonempty; eauto|discriminate].
  - inversion H' as [E|cp' s' t'' Hcp' Hs' E|c' s' t'' Hb' Hs' E]; subst.
    + exfalso. destruct (utf8_enc cp) eqn:E'; [eapply utf8_enc_nonempty; eauto|discriminate].
    + apply utf8_enc_inj in E as [E ->]; auto. rewrite E. f_equal. auto.
    + exfalso. apply Hb'. exists cp, s. auto.
  - inversion H' as [E|cp' s' t'' Hcp' Hs' E|c' s' t'' Hb' Hs' E]; subst.
    + exfalso. apply Hb. exists cp', s'. auto.
    + f_equal. auto.
Qed.
Lemma sanitized_utf8 s : utf8 s -> sanitized s s.
Proof. induction 1; constructor; auto. Qed.
Lemma sanitized_is_utf8 s t : sanitized s t -> utf8 t.
Proof.
  induction 1; try constructor; auto. change (63 :: t) with (utf8_enc 63 ++ t). constructor; auto. unfold scalar; lia.
Qed.

Lemma utf8_enc_all cp : scalar cp -> (utf8_enc cp = [cp] /\ cp < 128) \/ Forall (fun x => 128 <= x) (utf8_enc cp).
Proof.
  unfold scalar, utf8_enc. intros H. destruct (Z.ltb_spec cp 128) as [L|L]; [left; auto|]. right.
  destruct (Z.ltb_spec cp 2048); [repeat constructor; lia|].
  destruct (Z.ltb_spec cp 65536); repeat constructor; lia.
Qed.
Lemma utf8_enc_tail cp c r : scalar cp -> utf8_enc cp = c :: r -> (r = [] /\ c = cp /\ cp < 128) \/ Forall (fun x => 128 <= x) (c :: r).
Proof.
  intros H E. destruct (utf8_enc_all cp H) as [[E2 L]|F]; rewrite E in *; [left|right; auto].
  repeat split; auto; congruence.
Qed.

(** A character at the start of a run of plain bytes ends inside the run. *)
Lemma enc_in_run cp run rest r : run <> [] -> scalar cp -> (forall c x, rest = c :: x -> c < 128) ->
  run ++ rest = utf8_enc cp ++ r -> exists r', run = utf8_enc cp ++ r'.
Proof.
  intros Hne Hcp Hrest E.
  destruct (le_lt_dec (List.length (utf8_enc cp)) (List.length run)) as [L|L].
  - exists (skipn (List.length (utf8_enc cp)) run).
    assert (F : firstn (List.length (utf8_enc cp)) run = utf8_enc cp).
    { transitivity (firstn (List.length (utf8_enc cp)) (run ++ rest)).
      - rewrite firstn_app. replace (List.length (utf8_enc cp) - List.length run)%nat with 0%nat by lia.
        rewrite firstn_O, app_nil_r. reflexivity.
      - rewrite E. apply firstn_app_all. }
    rewrite <- F at 1. symmetry. apply firstn_skipn.
  - exfalso.
    destruct (utf8_enc cp) as [|c l] eqn:Ec; [cbn in L; lia|].
    destruct (utf8_enc_tail cp c l Hcp Ec) as [(-> & -> & _)|Hall].
    + destruct run; [congruence|]. cbn in L. lia.
    + destruct rest as [|d rest].
      * rewrite app_nil_r in E. apply (f_equal (@List.length Z)) in E. rewrite app_length in E. lia.
      * specialize (Hrest d rest eq_refl).
        assert (N : nth (List.length run) (run ++ d :: rest) 0 = d) by (rewrite app_nth2, Nat.sub_diag; [reflexivity|lia]).
        rewrite E, app_nth1 in N by lia.
        rewrite Forall_forall in Hall. specialize (Hall d). rewrite <- N in Hall at 1.
        specialize (Hall (nth_In _ _ L)). lia.
Qed.

Lemma write_run_spec : forall fuel run rest s t,
  (List.length run <= fuel)%nat -> bytes_ok run -> Forall (fun c => plain c = true) run ->
  (forall c x, rest = c :: x -> c < 128) ->
  sanitized rest s -> string_text false s t ->
  sanitized (run ++ rest) (write_run fuel run ++ s) /\
  string_text false (write_run fuel run ++ s) (write_run fuel run ++ t) /\
  printable (write_run fuel run).
Proof.
  induction fuel as [|fuel IH]; intros run rest s t Hl Hb Hp Hr Hs Ht.
  - destruct run; [|cbn in Hl; lia]. cbn. repeat split; auto. constructor.
  - destruct run as [|c run']; [cbn; repeat split; auto; constructor|].
    cbn [write_run]. set (run := c :: run') in *.
    assert (Hb4 : bytes_ok (firstn 4 run)) by (rewrite <- (firstn_skipn 4 run) in Hb; apply bytes_ok_app in Hb; tauto).
    destruct (utf8_validate (firstn 4 run)) as [n|] eqn:Ev.
    + apply validate_sound in Ev as (cp & r0 & Hsc & E & ->); auto; [|discriminate].
      assert (E2 : run = utf8_enc cp ++ (r0 ++ skipn 4 run)).
      { rewrite app_assoc, <- E. symmetry. apply firstn_skipn. }
      remember (r0 ++ skipn 4 run) as run2 eqn:Er2.
      rewrite E2, firstn_app_all, skipn_app_all.
      assert (Hbp : bytes_ok run2 /\ Forall (fun c => plain c = true) run2 /\ Forall (fun c => plain c = true) (utf8_enc cp)).
      { rewrite E2 in Hb, Hp. apply bytes_ok_app in Hb. apply Forall_app in Hp. tauto. }
      destruct Hbp as (Hb2 & Hp2 & Hp3).
      assert (Hl2 : (List.length run2 <= fuel)%nat).
      { apply (f_equal (@List.length Z)) in E2. rewrite app_length in E2. pose proof (utf8_enc_length cp). lia. }
      destruct (IH run2 rest s t Hl2 Hb2 Hp2 Hr Hs Ht) as (I1 & I2 & I3).
      rewrite <- !app_assoc. split; [constructor; auto|]. split.
      * assert (Pc : plain (nth 0 (utf8_enc cp) 0) = true).
        { destruct (utf8_enc cp) eqn:Ee; [exfalso; eapply utf8_enc_nonempty; eauto|]. inversion Hp3; auto. }
        destruct (utf8_enc_hd cp) as (c' & r'' & Ec & E1 & E3); [unfold scalar in *; lia|].
        rewrite Ec in Pc. cbn [nth] in Pc. unfold plain in Pc.
        apply St_char; auto; lia.
      * apply Forall_app. split; auto. eapply Forall_impl; [|exact Hp3]. cbn beta. intros x Hx. unfold plain in Hx. lia.
    + assert (Hbad : ~ starts_with_char (run ++ rest)).
      { intros (cp & r & Hsc & E). destruct (enc_in_run cp run rest r) as (r' & Er'); auto; [discriminate|].
        assert (V : utf8_validate (firstn 4 run) = Some (List.length (utf8_enc cp))).
        { rewrite Er'. pose proof (utf8_enc_length cp).
          rewrite firstn_app, firstn_all2 by lia. apply validate_complete; auto. }
        congruence. }
      assert (Hb2 : bytes_ok run') by (inversion Hb; auto).
      assert (Hp2 : Forall (fun c => plain c = true) run') by (inversion Hp; auto).
      destruct (IH run' rest s t ltac:(cbn in Hl; lia) Hb2 Hp2 Hr Hs Ht) as (I1 & I2 & I3).
      split; [exact (San_bad c _ _ Hbad I1)|]. split.
      * exact (St_char false 63 _ _ (or_introl (conj (ltac:(lia) : 0 <= 63) (ltac:(lia) : 63 < 55296))) (ltac:(lia) : 32 <= 63) (ltac:(lia) : 63 <> 34) (ltac:(lia) : 63 <> 92) I2).
      * constructor; auto; lia.
Qed.

Lemma span_plain_spec b run r : span_plain b = (run, r) ->
  b = run ++ r /\ Forall (fun c => plain c = true) run /\ (forall c x, r = c :: x -> plain c = false).
Proof.
  revert run r; induction b as [|c b IH]; intros run r; cbn [span_plain].
  - intros [= <- <-]. repeat split; [constructor|discriminate].
  - destruct (plain c) eqn:E.
    + destruct (span_plain b) as [d' r'] eqn:E'. intros [= <- <-].
      destruct (IH _ _ eq_refl) as (-> & Hd & Hr). repeat split; auto.
    + intros [= <- <-]. repeat split; [constructor|]. intros c' r' [= -> ->]. auto.
Qed.

Lemma nibble_hexdigit v : 0 <= v < 16 -> hexdigit (nibble v) v.
Proof. unfold nibble, hexdigit. intros. destruct (Z.leb_spec v 9); lia. Qed.

Lemma write_escape_spec c s t : 0 <= c -> plain c = false -> c < 256 -> c < 128 -> string_text false s t ->
  string_text false (c :: s) (write_escape c ++ t) /\ printable (write_escape c).
Proof.
  intros H0 Hp _ H128 Ht. unfold write_escape.
  destruct (Z.eqb_spec c 34) as [->|N34].
  { split; [apply St_short; auto; left; reflexivity|repeat constructor; lia]. }
  destruct (Z.eqb_spec c 92) as [->|N92].
  { split; [apply St_short; auto; right; right; left; reflexivity|repeat constructor; lia]. }
  rewrite Z.shiftr_div_pow2 by lia. change (2^4) with 16.
  replace (Z.land c 15) with (c mod 16) by (change 15 with (Z.ones 4); rewrite Z.land_ones by lia; reflexivity).
  split.
  - replace (c :: s) with (utf8_enc c ++ s).
    2: { unfold utf8_enc. destruct (Z.ltb_spec c 128); [reflexivity|lia]. }
    cbn [app]. change (92 :: 117 :: 48 :: 48 :: nibble (c / 16) :: nibble (c mod 16) :: t)
      with (92 :: 117 :: [48; 48; nibble (c / 16); nibble (c mod 16)] ++ t).
    apply St_unit; auto; [|unfold scalar; lia].
    exists 48, 48, (nibble (c / 16)), (nibble (c mod 16)), 0, 0, (c / 16), (c mod 16).
    repeat split; try (apply nibble_hexdigit; lia); [left; lia|left; lia|lia].
  - assert (forall v, 0 <= v < 16 -> 32 <= nibble v /\ nibble v <> 127) as N.
    { intros v Hv. unfold nibble. destruct (Z.leb_spec v 9); lia. }
    repeat constructor; try lia; apply N; lia.
Qed.

Lemma write_body_spec : forall fuel b, (List.length b < fuel)%nat -> bytes_ok b ->
  exists s, sanitized b s /\ string_text false s (write_body fuel b) /\ printable (write_body fuel b).
Proof.
  induction fuel as [|fuel IH]; intros b Hl Hb; [lia|].
  cbn [write_body]. destruct b as [|c b]; [exists []; repeat split; constructor|].
  destruct (span_plain (c :: b)) as [run r] eqn:E.
  apply span_plain_spec in E as (E & Hrun & Hr).
  assert (Hbb : bytes_ok run /\ bytes_ok r) by (rewrite E in Hb; apply bytes_ok_app in Hb; tauto).
  destruct Hbb as [Hb1 Hb2].
  assert (Hr2 : forall x y, r = x :: y -> x < 128).
  { intros x y Er. specialize (Hr x y Er). unfold plain in Hr. lia. }
  destruct r as [|d r'].
  - destruct (write_run_spec (List.length run) run [] [] [] (le_n _) Hb1 Hrun Hr2 San_nil (St_nil _)) as (I1 & I2 & I3).
    rewrite !app_nil_r in *. rewrite E. exists (write_run (List.length run) run). rewrite ?app_nil_r in *. auto.
  - assert (Hl2 : (List.length r' < fuel)%nat).
    { apply (f_equal (@List.length Z)) in E. rewrite app_length in E. cbn [List.length] in *. lia. }
    inversion Hb2 as [|? ? Hd Hb3]; subst. unfold is_byte in Hd.
    destruct (IH r' Hl2 Hb3) as (s & S1 & S2 & S3).
    assert (Hd128 : d < 128) by (eapply Hr2; eauto).
    destruct (write_escape_spec d s (write_body fuel r')) as (W1 & W2); [lia|eapply Hr; eauto|lia|lia|auto|].
    assert (S4 : sanitized (d :: r') (d :: s)).
    { replace d with (hd 0 (utf8_enc d)) by (unfold utf8_enc; destruct (Z.ltb_spec d 128); [reflexivity|lia]).
      assert (Ed : utf8_enc d = [d]) by (unfold utf8_enc; destruct (Z.ltb_spec d 128); [reflexivity|lia]).
      rewrite Ed. cbn [hd]. change (d :: r') with ([d] ++ r'). change (d :: s) with ([d] ++ s). rewrite <- Ed.
      constructor; auto. unfold scalar; lia. }
    destruct (write_run_spec (List.length run) run (d :: r') (d :: s) _ (le_n _) Hb1 Hrun Hr2 S4 W1) as (I1 & I2 & I3).
    rewrite E. exists (write_run (List.length run) run ++ d :: s). split; [auto|]. split; [exact I2|].
    apply Forall_app. split; auto. apply Forall_app. split; auto.
Qed.

Lemma string_text_utf8 s t : string_text false s t -> utf8 t.
Proof.
  induction 1.
  - constructor.
  - constructor; auto.
  - change (92 :: e :: t) with ([92; e] ++ t). apply utf8_app; auto. apply utf8_ascii.
    unfold short_escape in *. cbn [In] in *.
    repeat match goal with H : _ \/ _ |- _ => destruct H end; try contradiction; 
    match goal with H : (_, _) = (_, _) |- _ => injection H as <- <- end; repeat constructor; lia.
  - change (92 :: 117 :: h ++ t) with (([92; 117] ++ h) ++ t). apply utf8_app; auto. apply utf8_ascii.
    destruct H as (a & b' & c & d & va & vb & vc & vd & -> & Ha & Hb & Hc & Hd & ->).
    apply hexdigit_range in Ha, Hb, Hc, Hd. repeat constructor; lia.
  - replace (92 :: 117 :: h1 ++ 92 :: 117 :: h2 ++ t) with (([92; 117] ++ h1 ++ [92; 117] ++ h2) ++ t)
      by (cbn [app]; repeat (rewrite <- ?app_assoc; cbn [app]); reflexivity).
    apply utf8_app; auto. apply utf8_ascii.
    destruct H as (a & b' & c & d & va & vb & vc & vd & -> & Ha & Hb & Hc & Hd & ->).
    destruct H0 as (a' & b'' & c' & d' & va' & vb' & vc' & vd' & -> & Ha' & Hb' & Hc' & Hd' & ->).
    apply hexdigit_range in Ha, Hb, Hc, Hd, Ha', Hb', Hc', Hd'. repeat constructor; lia.
  - discriminate.
Qed.

Lemma to_json_string_spec s : bytes_ok s ->
  exists body c, to_json_string s = 34 :: body ++ [34] /\ sanitized s c /\ string_text false c body /\
    printable (to_json_string s) /\ utf8 (to_json_string s).
Proof.
  intros Hb. destruct (write_body_spec (S (List.length s)) s (Nat.lt_succ_diag_r _) Hb) as (c & S1 & S2 & S3).
  exists (write_body (S (List.length s)) s), c. split; [reflexivity|]. split; auto. split; auto. unfold to_json_string. split.
  - constructor; [lia|]. apply Forall_app. split; auto. repeat constructor; lia.
  - change (34 :: write_body (S (List.length s)) s ++ [34]) with ([34] ++ write_body (S (List.length s)) s ++ [34]).
    apply utf8_app; [apply utf8_ascii; repeat constructor; lia|]. apply utf8_app; [|apply utf8_ascii; repeat constructor; lia].
    eapply string_text_utf8; eauto.
Qed.
Lemma to_json_string_value s c : bytes_ok s -> sanitized s c -> value_text false (JStr c) (to_json_string s).
Proof.
  intros Hb Hs. destruct (to_json_string_spec s Hb) as (body & c' & E & Hs' & Ht & _).
  rewrite (sanitized_fun _ _ Hs _ Hs'). rewrite E. constructor; auto.
Qed.
Lemma sanitized_total s : bytes_ok s -> exists c, sanitized s c.
Proof. intros Hb. destruct (to_json_string_spec s Hb) as (body & c' & E & Hs' & _). eauto. Qed.
