(** * C67: the JSON reader works in the caller's buffer *)
From Verif Require Import Base Hex Utf8 Json JsonSpec JsonStrFacts JsonFacts AbiJsonText InPlace InPlaceFacts.

(** ** Specification *)
(** The reader on a buffer has handed out these tokens, in this order. *)
Inductive pulled (buffer : bytes) : list view -> pull -> Prop :=
| pulled_open : pulled buffer [] (pull_open buffer)
| pulled_next vs s v s' : pulled buffer vs s -> pull_next s = OToken v s' -> pulled buffer (vs ++ [v]) s'.
(** Any number of calls later. *)
Inductive later (s : pull) : pull -> Prop :=
| later_now : later s s
| later_next s1 v s2 : later s s1 -> pull_next s1 = OToken v s2 -> later s s2.
(** A C string: no NUL inside. *)
Definition no_nul (t : bytes) : Prop := Forall (fun c => c <> 0) t.
(** A buffer that holds a C string and [junk] after the NUL that ends it. *)
Definition buffer_of (text junk : bytes) : bytes := text ++ 0 :: junk.
(** What a call does, given the tokens still to come and the error behind them. *)
Definition agrees (s : pull) (o : outcome) (more : list token) (e : option error) : Prop :=
  match o with
  | OToken v s' => exists more', more = shown (pbuf s') v :: more'
  | OComplete s' => s' = s /\ more = [] /\ e = None
  | OFail m err => more = [] /\ e = Some err
  | OBad => False
  end.

(** ** Proofs *)
Lemma split_at_nul text pad : exists junk, text ++ 0 :: pad = cstr text ++ 0 :: junk /\ (List.length pad <= List.length junk)%nat.
Proof.
  induction text as [|c t (junk & E & L)]; cbn [app cstr]; [exists pad; auto|]. destruct (Z.eqb_spec c 0) as [->|N].
  - exists (t ++ 0 :: pad). split; [reflexivity|]. rewrite app_length. cbn [List.length]. lia.
  - exists junk. cbn [app]. rewrite E. auto.
Qed.
Lemma nz_cstr text : nz (cstr text).
Proof. induction text as [|c t IH]; cbn [cstr]; [constructor|]. destruct (Z.eqb_spec c 0); [constructor|constructor; auto]. Qed.
Lemma text_at_pre D R a n : (a + n <= List.length D)%nat -> text_at (D ++ R) a n = text_at D a n.
Proof.
  intros H. unfold text_at. rewrite skipn_app. replace (a - List.length D)%nat with 0%nat by lia. cbn [skipn].
  rewrite firstn_app, skipn_length. replace (n - (List.length D - a))%nat with 0%nat by lia. cbn [firstn]. apply app_nil_r.
Qed.
(** Changing the buffer behind the place of reading changes no view. *)
Lemma shown_pre D R R' v : settled (D ++ R) (List.length D) v -> shown (D ++ R') v = shown (D ++ R) v.
Proof. destruct v; cbn [settled shown]; try reflexivity; intros [H _]; rewrite !text_at_pre by lia; reflexivity. Qed.
Lemma settled_pre D R R' p v : settled (D ++ R) (List.length D) v -> (List.length D <= p)%nat -> settled (D ++ R') p v.
Proof.
  intros H L. destruct v; cbn [settled] in *; try exact I.
  - destruct H as [H1 H2]. split; [lia|]. destruct H2 as [[H2 H3]|H2]; [left|right; rewrite text_at_pre in * by lia; exact H2].
    split; [lia|]. rewrite nth_error_app1 in * by lia. exact H3.
  - destruct H as [H1 H2]. split; [lia|]. rewrite nth_error_app1 in * by lia. exact H2.
Qed.

Section Reader.
Context (text junk : bytes) (Hn : nz text) (HS : safe text junk).
Record standing (vs : list view) (s : pull) (D r : bytes) : Prop := {
  st_buf : pbuf s = D ++ r ++ 0 :: junk;
  st_pos : ppos s = List.length D;
  st_suf : exists u, text = u ++ r /\ List.length u = List.length D;
  st_nz : nz r;
  st_safe : safe r junk;
  st_fin : pst s = PFinish -> r = [];
  st_views : Forall (settled (pbuf s) (ppos s)) vs;
  st_toks : tokenize text = (map (shown (pbuf s)) vs ++ fst (tokens_from (pst s) (pstk s) r), snd (tokens_from (pst s) (pstk s) r)) }.
Lemma standing_call vs s D r : standing vs s D r -> called (pst s) (pstk s) D r junk (pull_next s).
Proof.
  intros [B P0 _ N S1 F _ _]. unfold pull_next. rewrite B, P0. apply icall_st; auto. rewrite !app_length. lia.
Qed.
Lemma standing_next vs s D r v s' : standing vs s D r -> pull_next s = OToken v s' -> exists X r', standing (vs ++ [v]) s' (D ++ X) r'.
Proof.
  intros H E. pose proof (standing_call _ _ _ _ H) as C. rewrite E in C. destruct H as [B P0 (u & Et & Lu) N S1 F V T].
  destruct C as (r' & (X & B' & P' & L' & N' & S' & F') & (u' & Er) & Sv & Tk). exists X, r'.
  assert (B2 : pbuf s' = (D ++ X) ++ r' ++ 0 :: junk) by (rewrite B', <- app_assoc; reflexivity).
  assert (SH : forall w, In w vs -> shown (pbuf s') w = shown (pbuf s) w).
  { intros w Hw. rewrite B', B. apply shown_pre. rewrite Forall_forall in V. specialize (V w Hw). rewrite B, P0 in V. exact V. }
  split; auto.
  - exists (u ++ u'). rewrite <- app_assoc, <- Er. split; [exact Et|]. rewrite B', Er in L'. repeat (rewrite ?app_length in *; cbn [List.length] in *). lia.
  - apply Forall_app. split; [|constructor; [exact Sv|constructor]]. apply Forall_forall. intros w Hw. rewrite Forall_forall in V. specialize (V w Hw). rewrite B, P0 in V.
    rewrite B', P'. apply (settled_pre D _ _ _ _ V). rewrite app_length. lia.
  - rewrite T, Tk. cbn [fst snd]. rewrite map_app, <- app_assoc. cbn [map app]. do 2 f_equal. apply map_ext_in. intros w Hw. symmetry. apply SH. exact Hw.
Qed.
Lemma standing_open : standing [] (pull_open (text ++ 0 :: junk)) [] text.
Proof.
  split; auto.
  - exists []. auto.
  - discriminate.
  - cbn [map app pull_open pst pstk tokens_from]. unfold tokenize, P. rewrite cstr_nz by exact Hn. apply surjective_pairing.
Qed.
Lemma pulled_standing vs s : pulled (buffer_of text junk) vs s -> exists D r, standing vs s D r.
Proof.
  induction 1 as [|vs s v s' _ (D & r & IH) E]; [exists [], text; apply standing_open|].
  destruct (standing_next _ _ _ _ _ _ IH E) as (X & r' & H). eauto.
Qed.
Lemma later_standing vs s D r s' : standing vs s D r -> later s s' -> exists X ws r', standing (vs ++ ws) s' (D ++ X) r'.
Proof.
  intros H. induction 1 as [|s1 v s2 _ (X & ws & r' & IH) E].
  - exists [], [], r. rewrite !app_nil_r. exact H.
  - destruct (standing_next _ _ _ _ _ _ IH E) as (X2 & r2 & H2). exists (X ++ X2), (ws ++ [v]), r2. rewrite !app_assoc. exact H2.
Qed.
Lemma standing_shown vs s D r m : standing vs s D r -> (exists R, m = D ++ R) -> forall v, In v vs -> shown m v = shown (pbuf s) v.
Proof.
  intros [B P0 _ _ _ _ V _] (R & ->) v Hv. rewrite B. apply shown_pre. rewrite Forall_forall in V. specialize (V v Hv). rewrite B, P0 in V. exact V.
Qed.
End Reader.

(** ** Reading in place gives the tokens of the text. Whatever has been read, the
    views hold in the buffer, as it is now, the tokens of the text so far, and the
    next call gives the next one, or the end, or the error; it stays inside the
    buffer. It takes two bytes after the NUL, or a text in well formed UTF-8. *)
Theorem C67_same_tokens : forall text junk vs s,
  no_nul text -> (2 <= List.length junk)%nat \/ utf8 text -> pulled (buffer_of text junk) vs s ->
  exists more, fst (tokenize text) = map (shown (pbuf s)) vs ++ more /\ agrees s (pull_next s) more (snd (tokenize text)).
Proof.
  intros text junk vs s Hn HS H. destruct (pulled_standing text junk Hn HS vs s H) as (D & r & St).
  pose proof (standing_call _ _ _ _ _ _ St) as C. rewrite (st_toks _ _ _ _ _ _ St). cbn [fst snd].
  exists (fst (tokens_from (pst s) (pstk s) r)). split; [reflexivity|]. destruct (pull_next s) as [v s'|s'|m e|]; cbn [agrees called] in *.
  - destruct C as (r' & _ & _ & _ & ->). cbn [fst]. eauto.
  - destruct C as [F ->]. rewrite F. destruct St as [B P0 _ _ _ Fr _ _]. split; [|auto]. destruct s as [m p st stk]. cbn [pbuf ppos pst pstk] in *. congruence.
  - destruct C as [-> _]. auto.
  - exact C.
Qed.
Print Assumptions C67_same_tokens.

(** ** A view keeps its text while the reader goes on, and when it fails. *)
Theorem C67_views_stay : forall text junk vs s s',
  no_nul text -> (2 <= List.length junk)%nat \/ utf8 text -> pulled (buffer_of text junk) vs s -> later s s' ->
  forall v, In v vs ->
    shown (pbuf s') v = shown (pbuf s) v /\
    (forall m e, pull_next s' = OFail m e -> shown m v = shown (pbuf s) v).
Proof.
  intros text junk vs s s' Hn HS H L v Hv. destruct (pulled_standing text junk Hn HS vs s H) as (D & r & St).
  destruct (later_standing text junk vs s D r s' St L) as (X & ws & r' & St').
  assert (E : shown (pbuf s') v = shown (pbuf s) v).
  { apply (standing_shown text junk vs s D r); [exact St| |exact Hv]. rewrite (st_buf _ _ _ _ _ _ St'), <- app_assoc. eauto. }
  split; [exact E|]. intros m e F. rewrite <- E. pose proof (standing_call _ _ _ _ _ _ St') as C. rewrite F in C. destruct C as (_ & R & -> & _).
  apply (standing_shown text junk (vs ++ ws) s' (D ++ X) r'); [exact St'|eauto|apply in_or_app; auto].
Qed.
Print Assumptions C67_views_stay.

(** ** Behind the text of a key, and of a string that is not a number, stands a NUL,
    from the call that handed it out on: the view is a C string. The view is in
    the part of the buffer which has been read. *)
Theorem C67_terminated : forall text junk vs s s',
  no_nul text -> (2 <= List.length junk)%nat \/ utf8 text -> pulled (buffer_of text junk) vs s -> later s s' ->
  forall v, In v vs ->
    match v with
    | VKey a n => (a + n < ppos s)%nat /\ nth_error (pbuf s') (a + n) = Some 0
    | VString a n => (a + n <= ppos s)%nat /\ (nth_error (pbuf s') (a + n) = Some 0 \/ number_text (text_at (pbuf s') a n))
    | _ => True
    end.
Proof.
  intros text junk vs s s' Hn HS H L v Hv. destruct (pulled_standing text junk Hn HS vs s H) as (D & r & St).
  destruct (later_standing text junk vs s D r s' St L) as (X & ws & r' & St').
  pose proof (st_views _ _ _ _ _ _ St) as V. rewrite Forall_forall in V. specialize (V v Hv).
  rewrite (st_buf _ _ _ _ _ _ St') in *. rewrite (st_buf _ _ _ _ _ _ St), (st_pos _ _ _ _ _ _ St) in V. rewrite (st_pos _ _ _ _ _ _ St).
  pose proof (settled_pre D _ (X ++ r' ++ 0 :: junk) _ v V (Nat.le_refl _)) as V'. rewrite <- app_assoc. destruct v; cbn [settled] in V'; try exact I.
  - destruct V' as [V1 V2]. split; [exact V1|]. destruct V2 as [[_ V2]|V2]; auto.
  - exact V'.
Qed.
Print Assumptions C67_terminated.

(** ** What has not been read is as the caller wrote it, the NUL and what follows it
    too, and the buffer keeps its size. *)
Theorem C67_unread : forall text junk vs s,
  no_nul text -> (2 <= List.length junk)%nat \/ utf8 text -> pulled (buffer_of text junk) vs s ->
  List.length (pbuf s) = List.length (buffer_of text junk) /\
  skipn (ppos s) (pbuf s) = skipn (ppos s) (buffer_of text junk) /\ (ppos s <= List.length text)%nat.
Proof.
  intros text junk vs s Hn HS H. destruct (pulled_standing text junk Hn HS vs s H) as (D & r & St). destruct St as [B P0 (u & -> & Lu) _ _ _ _ _].
  unfold buffer_of. rewrite B, P0, <- app_assoc. repeat rewrite app_length. split; [lia|]. split; [|lia].
  assert (X : forall (a b : bytes) n, List.length a = n -> skipn n (a ++ b) = b) by (intros a b n <-; rewrite skipn_app, skipn_all, Nat.sub_diag; reflexivity).
  rewrite (X D) by reflexivity. rewrite (X u) by exact Lu. reflexivity.
Qed.
Print Assumptions C67_unread.

(** ** The buffer of abieos_json_to_bin is long enough for every text. *)
Theorem C67_json_to_bin : forall text vs s, pulled (buffer_json_to_bin text) vs s ->
  exists more, fst (tokenize text) = map (shown (pbuf s)) vs ++ more /\ agrees s (pull_next s) more (snd (tokenize text)).
Proof.
  intros text vs s H. destruct (split_at_nul text [0; 0; 0]) as (junk & E & L). unfold buffer_json_to_bin in H. rewrite E in H.
  assert (T : tokenize (cstr text) = tokenize text). { unfold tokenize. rewrite (cstr_nz (cstr text)) by apply nz_cstr. reflexivity. }
  rewrite <- T. apply (C67_same_tokens (cstr text) junk); [apply nz_cstr|left; cbn [List.length] in L; lia|exact H].
Qed.
Print Assumptions C67_json_to_bin.

(** ** The one of abieos_set_abi is long enough for texts in well formed UTF-8... *)
Theorem C67_set_abi : forall text vs s, no_nul text -> utf8 text -> pulled (buffer_set_abi text) vs s ->
  exists more, fst (tokenize text) = map (shown (pbuf s)) vs ++ more /\ agrees s (pull_next s) more (snd (tokenize text)).
Proof. intros text vs s N U H. exact (C67_same_tokens text [] vs s N (or_intror U) H). Qed.
Print Assumptions C67_set_abi.

(** ... but not for others: a text that ends inside a character makes the reader go
    on past the end of the buffer. One byte more would not be enough either. *)
Theorem C67_set_abi_refuted : exists text, bytes_ok text /\ no_nul text /\
  pull_next (pull_open (buffer_set_abi text)) = OBad /\ pull_next (pull_open (buffer_of text [0])) = OBad.
Proof.
  exists [34; 240]. split; [repeat constructor; unfold is_byte; lia|]. split; [repeat constructor; lia|]. split; reflexivity.
Qed.
Print Assumptions C67_set_abi_refuted.

(** ... and to write there: the byte after the NUL, [x], becomes [y]. *)
Theorem C67_unread_when_it_fails_refuted : exists text, forall x y,
  exists m e, pull_next (pull_open (buffer_of text [x; y])) = OFail m e /\ skipn (S (List.length text)) m = [y; y].
Proof.
  exists [34; 92; 110; 240]. intros x y. exists [34; 10; 240; 0; x; y; y], E_string_invalid_encoding.
  split; [lazy; reflexivity|reflexivity].
Qed.
Print Assumptions C67_unread_when_it_fails_refuted.

(** ** Cases: escapes, a number, a key, and the views after the last call. *)
Fixpoint pulls (n : nat) (s : pull) : list view * pull * outcome :=
  match n with
  | O => ([], s, OBad)
  | S n' => match pull_next s with
            | OToken v s' => let '(vs, s2, o) := pulls n' s' in (v :: vs, s2, o)
            | o => ([], s, o)
            end
  end.
Definition in_place_text : bytes := str " {""k\n\u00e9"": [-1.5e2 ,""\ud83d\ude00x"", true ]} ".
Example in_place_example :
  let m := [32; 123; 34; 107; 10; 195; 169; 0; 48; 48; 101; 57; 34; 58; 32; 91; 45; 49; 46; 53; 101; 50; 32; 44; 34; 240; 159; 152; 128;
            120; 0; 92; 117; 100; 101; 48; 48; 120; 34; 44; 32; 116; 114; 117; 101; 32; 93; 125; 32; 0; 7; 9] in
  pulls 10 (pull_open (buffer_of in_place_text [7; 9])) =
    ([VStartObject; VKey 3 4; VStartArray; VString 16 6; VString 25 5; VBool true; VEndArray; VEndObject],
     Pull m 49 PFinish [], OComplete (Pull m 49 PFinish [])) /\
  map (shown m) [VKey 3 4; VString 16 6; VString 25 5] = [TkKey [107; 10; 195; 169]; TkString (str "-1.5e2"); TkString [240; 159; 152; 128; 120]].
Proof. split; vm_compute; reflexivity. Qed.
(** A text that is not UTF-8, in a buffer long enough. *)
Example in_place_example_bad :
  pull_next (pull_open (buffer_json_to_bin [34; 92; 110; 240])) = OFail [34; 10; 240; 0; 0; 0; 0; 0] E_string_invalid_encoding /\
  tokenize [34; 92; 110; 240] = ([], Some E_string_invalid_encoding).
Proof. split; reflexivity. Qed.
