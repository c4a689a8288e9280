(** * Reading in place agrees with reading the text (InPlace.v). *)
From Verif Require Import Base Hex Utf8 Json JsonSpec JsonStrFacts JsonFacts InPlace.

(** The stream in the middle of a string: [A] is what is before the place of
    writing, [G] is between the two places, [R] is what is left to read. *)
Definition stt (A G R : bytes) : istream := IS (A ++ G ++ R) (List.length A + List.length G) (List.length A).

Lemma ipeek_st A G c R : ipeek (stt A G (c :: R)) = Ok c.
Proof.
  unfold ipeek, stt. cbn [ibuf isrc]. rewrite app_assoc, <- app_length, nth_error_app2, Nat.sub_diag by lia. reflexivity.
Qed.
Lemma ipeek_end A G : ipeek (stt A G []) = Undef outside.
Proof.
  unfold ipeek, stt. cbn [ibuf isrc]. rewrite app_nil_r, <- app_length. rewrite (proj2 (nth_error_None _ _)) by lia. reflexivity.
Qed.
Lemma itake_st A G c R : itake (stt A G (c :: R)) = Ok (c, stt A (G ++ [c]) R).
Proof.
  unfold itake. rewrite ipeek_st. cbn [bind]. unfold stt. cbn [ibuf isrc idst]. rewrite app_length. cbn [List.length].
  rewrite <- app_assoc. cbn [app]. do 3 f_equal. lia.
Qed.
Lemma iput_st x A g G R : iput x (stt A (g :: G) R) = Ok (stt (A ++ [x]) G R).
Proof.
  unfold iput, stt. cbn [ibuf isrc idst]. rewrite (proj2 (Nat.ltb_lt _ _)) by (rewrite !app_length; cbn [List.length]; lia).
  rewrite firstn_app, Nat.sub_diag, firstn_all. cbn [firstn]. rewrite app_nil_r.
  rewrite skipn_app, skipn_all2 by lia. replace (S (List.length A) - List.length A)%nat with 1%nat by lia. cbn [skipn app].
  rewrite app_length. cbn [List.length]. rewrite <- app_assoc. cbn [app]. do 2 f_equal; lia.
Qed.
Lemma iputs_st t : forall A G R, (List.length t <= List.length G)%nat -> iputs t (stt A G R) = Ok (stt (A ++ t) (skipn (List.length t) G) R).
Proof.
  induction t as [|x t IH]; intros A G R H; cbn [iputs].
  - rewrite app_nil_r. reflexivity.
  - destruct G as [|g G]; [cbn [List.length] in H; lia|]. rewrite iput_st. cbn [bind]. rewrite IH by (cbn [List.length] in H; lia).
    rewrite <- app_assoc. reflexivity.
Qed.
Lemma icopy_st A G c R : exists G', icopy (stt A G (c :: R)) = Ok (c, stt (A ++ [c]) G' R) /\ List.length G' = List.length G.
Proof.
  unfold icopy. rewrite itake_st. cbn [bind]. destruct G as [|g G]; cbn [app].
  - rewrite iput_st. exists []. auto.
  - rewrite iput_st. exists (G ++ [c]). split; [reflexivity|]. rewrite app_length. cbn [List.length]. lia.
Qed.

(** ** Checking a character *)
(** The bytes after the first one against the classes they must have. *)
Fixpoint fits (masks : list Z) (b : bytes) : bool :=
  match masks with
  | [] => true
  | k :: masks' => negb (Z.land (get_range (hd 0 b)) k =? 0) && fits masks' (tl b)
  end.
Lemma validate_fits c b : utf8_validate (c :: b) =
  if c <? 128 then Some 1%nat
  else match masks_of (get_range c) with
       | Some l => if fits l b then Some (S (List.length l)) else None
       | None => None
       end.
Proof.
  assert (N1 : nth 1 (c :: b) 0 = hd 0 b) by (destruct b; reflexivity).
  assert (N2 : nth 2 (c :: b) 0 = hd 0 (tl b)) by (destruct b as [|? [|]]; reflexivity).
  assert (N3 : nth 3 (c :: b) 0 = hd 0 (tl (tl b))) by (destruct b as [|? [|? [|]]]; reflexivity).
  unfold utf8_validate, tail_at, trans. rewrite N1, N2, N3. cbn [nth]. destruct (c <? 128); [reflexivity|]. unfold masks_of.
  repeat match goal with |- (if ?x then _ else _) = _ => destruct x; [cbn [fits]; rewrite ?andb_true_r, ?andb_assoc; reflexivity|] end.
  reflexivity.
Qed.
Lemma masks_len r l : masks_of r = Some l -> (List.length l <= 3)%nat.
Proof.
  unfold masks_of.
  repeat match goal with |- (if ?x then _ else _) = _ -> _ => destruct x; [intros [= <-]; cbn [List.length]; lia|] end. discriminate.
Qed.
Lemma fits_len l : forall b, fits l b = true -> (List.length l <= List.length b)%nat.
Proof.
  induction l as [|k l IH]; intros b H; cbn [List.length]; [lia|]. cbn [fits] in H. apply andb_prop in H as [H1 H2].
  destruct b as [|x b]; [exfalso; cbn [hd] in H1; change (get_range 0) with 0 in H1; rewrite Z.land_0_l in H1; discriminate H1|].
  cbn [tl] in H2. apply IH in H2. cbn [List.length]. lia.
Qed.
(** The bytes taken from the buffer, which may be the NUL and bytes after it, give
    the same answer. *)
Lemma fits_end l : forall b junk, (List.length l <= List.length (b ++ 0%Z :: junk))%nat ->
  fits l (firstn (List.length l) (b ++ 0%Z :: junk)) = fits l b.
Proof.
  induction l as [|k l IH]; intros b junk H; [reflexivity|]. destruct b as [|x b].
  - cbn [List.length app firstn fits hd]. change (get_range 0) with 0. rewrite Z.land_0_l. reflexivity.
  - cbn [List.length app firstn fits hd tl]. rewrite IH; [reflexivity|]. cbn [List.length app] in H. lia.
Qed.
Lemma ifollow_st l : forall A G xs R, List.length xs = List.length l ->
  exists G', ifollow l (stt A G (xs ++ R)) = Ok (fits l xs, stt (A ++ xs) G' R) /\ List.length G' = List.length G.
Proof.
  induction l as [|k l IH]; intros A G xs R H; destruct xs as [|x xs]; try discriminate H; cbn [ifollow fits hd tl app].
  - rewrite app_nil_r. exists G. auto.
  - destruct (icopy_st A G x (xs ++ R)) as (G1 & E1 & L1). rewrite E1. cbn [bind].
    destruct (IH (A ++ [x]) G1 xs R) as (G2 & E2 & L2); [cbn [List.length] in H; lia|]. rewrite E2. cbn [bind].
    exists G2. rewrite <- app_assoc. split; [reflexivity|lia].
Qed.
Lemma ifollow_short l : forall A G R, (List.length R < List.length l)%nat -> ifollow l (stt A G R) = Undef outside.
Proof.
  induction l as [|k l IH]; intros A G R H; [cbn [List.length] in H; lia|]. cbn [ifollow]. destruct R as [|x R].
  - unfold icopy, itake. rewrite ipeek_end. reflexivity.
  - destruct (icopy_st A G x R) as (G1 & E1 & L1). rewrite E1. cbn [bind]. rewrite IH by (cbn [List.length] in H; lia). reflexivity.
Qed.

(** ** What keeps the reader inside: two more bytes after the NUL, or well formed UTF-8. *)
Definition safe (b junk : bytes) : Prop := (2 <= List.length junk)%nat \/ utf8 b.
Definition ascii (b : bytes) : Prop := Forall (fun c => 0 <= c < 128) b.
Lemma utf8_enc_cons cp : scalar cp -> exists c t, utf8_enc cp = c :: t /\ (c < 128 -> t = []).
Proof.
  intros H. unfold scalar in H. unfold utf8_enc.
  destruct (Z.ltb_spec cp 128); [eexists _, _; split; [reflexivity|auto]|].
  destruct (Z.ltb_spec cp 2048); [eexists _, _; split; [reflexivity|lia]|].
  destruct (Z.ltb_spec cp 65536); eexists _, _; (split; [reflexivity|lia]).
Qed.
Lemma utf8_tl c b : utf8 (c :: b) -> c < 128 -> utf8 b.
Proof.
  intros H L. inversion H as [|cp r Hs Hr E]. destruct (utf8_enc_cons cp Hs) as (c' & t & E' & T). rewrite E' in E. cbn [app] in E.
  injection E as E0 E1. subst c'. rewrite (T L) in E1. cbn [app] in E1. subst. exact Hr.
Qed.
Lemma utf8_char c b : utf8 (c :: b) -> exists n, utf8_validate (c :: b) = Some n /\ utf8 (skipn n (c :: b)).
Proof.
  intros H. inversion H as [|cp r Hs Hr E]. exists (List.length (utf8_enc cp)). split; [apply validate_complete; exact Hs|].
  rewrite skipn_app, skipn_all, Nat.sub_diag. exact Hr.
Qed.
Lemma safe_tl c b junk : safe (c :: b) junk -> c < 128 -> safe b junk.
Proof. intros [H|H] L; [left; exact H|right; eapply utf8_tl; eauto]. Qed.
Lemma safe_app t b junk : ascii t -> safe (t ++ b) junk -> safe b junk.
Proof. induction 1 as [|c t Hc Ht IH]; cbn [app]; intros H; [exact H|]. apply IH. eapply safe_tl; eauto. lia. Qed.
Lemma safe_char c b junk n : safe (c :: b) junk -> utf8_validate (c :: b) = Some n -> safe (skipn n (c :: b)) junk.
Proof.
  intros [H|H] V; [left; exact H|right]. destruct (utf8_char c b H) as (n' & V' & U). rewrite V in V'. injection V' as ->. exact U.
Qed.

Lemma ivalidate_st A G c b junk : safe (c :: b) junk ->
  match utf8_validate (c :: b) with
  | Some n => exists G', ivalidate (stt A G (c :: b ++ 0%Z :: junk)) = Ok (true, stt (A ++ firstn n (c :: b)) G' (skipn n (c :: b) ++ 0%Z :: junk)) /\
                         List.length G' = List.length G /\ (1 <= n <= List.length (c :: b))%nat
  | None => exists A' G' R', ivalidate (stt A G (c :: b ++ 0%Z :: junk)) = Ok (false, stt (A ++ A') G' R') /\
                         List.length (A' ++ G' ++ R') = List.length (G ++ c :: b ++ 0%Z :: junk)
  end.
Proof.
  intros HS. pose proof (validate_fits c b) as V. unfold ivalidate.
  destruct (icopy_st A G c (b ++ 0%Z :: junk)) as (G1 & E1 & L1). rewrite E1. cbn [bind].
  destruct (c <? 128) eqn:C.
  { rewrite V. exists G1. cbn [firstn skipn List.length]. split; [reflexivity|]. split; [exact L1|lia]. }
  destruct (masks_of (get_range c)) as [l|] eqn:M.
  2:{ rewrite V. exists [c], G1, (b ++ 0%Z :: junk). split; [reflexivity|]. repeat (rewrite ?app_length; cbn [List.length]). lia. }
  assert (Len : (List.length l <= List.length (b ++ 0%Z :: junk))%nat).
  { destruct HS as [J|U].
    - apply masks_len in M. rewrite app_length. cbn [List.length]. lia.
    - destruct (utf8_char c b U) as (n & W & _). rewrite V in W. destruct (fits l b) eqn:F; [|discriminate W].
      apply fits_len in F. rewrite app_length. lia. }
  destruct (ifollow_st l (A ++ [c]) G1 (firstn (List.length l) (b ++ 0%Z :: junk)) (skipn (List.length l) (b ++ 0%Z :: junk))) as (G2 & E2 & L2).
  { rewrite firstn_length. lia. }
  rewrite firstn_skipn in E2. rewrite E2. rewrite fits_end by exact Len. rewrite V.
  destruct (fits l b) eqn:F.
  - pose proof (fits_len l b F) as L3. exists G2. cbn [firstn skipn List.length]. split; [|split; lia].
    rewrite firstn_app, skipn_app. replace (List.length l - List.length b)%nat with 0%nat by lia. cbn [firstn skipn]. rewrite app_nil_r, <- app_assoc. reflexivity.
  - exists (c :: firstn (List.length l) (b ++ 0%Z :: junk)), G2, (skipn (List.length l) (b ++ 0%Z :: junk)). rewrite <- app_assoc. split; [reflexivity|].
    rewrite app_length in Len. cbn [List.length] in Len.
    repeat (rewrite ?app_length, ?firstn_length, ?skipn_length; cbn [List.length]). lia.
Qed.

(** ** Strings *)
Lemma get_digit_ascii c d : get_digit c = Some d -> 0 <= c < 128.
Proof. unfold get_digit. repeat match goal with |- context [if ?x then _ else _] => destruct x eqn:? end; intros H; try discriminate H; lia. Qed.
Lemma escape_char_ascii c d : escape_char c = Some d -> 0 <= c < 128.
Proof. unfold escape_char. repeat match goal with |- context [if ?x then _ else _] => destruct x eqn:? end; intros H; try discriminate H; lia. Qed.
Lemma ihex_st n : forall acc A G b junk,
  match parse_hex n acc b with
  | Ok (u, r) => exists t, b = t ++ r /\ List.length t = n /\ ascii t /\ ihex n acc (stt A G (b ++ 0%Z :: junk)) = Ok (u, stt A (G ++ t) (r ++ 0%Z :: junk))
  | Err e => ihex n acc (stt A G (b ++ 0%Z :: junk)) = Err e
  | Undef _ => False
  end.
Proof.
  induction n as [|n IH]; intros acc A G b junk; cbn [parse_hex ihex].
  - exists []. repeat split; [constructor|]. rewrite app_nil_r. reflexivity.
  - destruct b as [|c b]; cbn [app]; rewrite ipeek_st; cbn [bind]; [reflexivity|].
    destruct (get_digit c) as [d|] eqn:D; [|reflexivity]. rewrite itake_st. cbn [bind].
    specialize (IH (acc * 16 + d) A (G ++ [c]) b junk). destruct (parse_hex n (acc * 16 + d) b) as [[u r]|e|w]; [|exact IH|exact IH].
    destruct IH as (t & -> & L & T & E). exists (c :: t). split; [reflexivity|]. split; [cbn [List.length]; lia|].
    split; [constructor; [eapply get_digit_ascii; eauto|exact T]|]. rewrite E, <- app_assoc. reflexivity.
Qed.
Lemma utf8_encode_len cp : (List.length (utf8_encode cp) <= 4)%nat.
Proof. unfold utf8_encode. repeat match goal with |- context [if ?x then _ else _] => destruct x end; cbn [List.length]; lia. Qed.

(** What reading a string in place comes to. *)
Definition in_place (A G b junk : bytes) (i : ires) (o : res (bytes * bytes)) : Prop :=
  match o with
  | Ok (s, r) => safe r junk /\ (exists u, b = u ++ r) /\ exists G', i = IDone (stt (A ++ s ++ [0]) G' (r ++ 0%Z :: junk)) /\
                 (List.length s + 1 + List.length G' + List.length r = List.length G + List.length b)%nat
  | Err e => exists R, i = IFail (A ++ R) e /\ List.length R = List.length (G ++ b ++ 0%Z :: junk)
  | Undef _ => False
  end.
Lemma in_place_go A G b junk i k t r G1 :
  in_place (A ++ t) G1 r junk i k -> (exists u, b = u ++ r) ->
  (List.length t + List.length G1 + List.length r = List.length G + List.length b)%nat ->
  in_place A G b junk i (let* (s, r') := k in Ok (t ++ s, r')).
Proof.
  unfold in_place. intros H (u & ->) L. destruct k as [[s r']|e|w]; cbn [bind]; [|destruct H as (R & -> & H)|exact H].
  - destruct H as (S1 & (u2 & ->) & G' & -> & L'). split; [exact S1|]. split; [exists (u ++ u2); now rewrite app_assoc|].
    exists G'. rewrite <- !app_assoc. split; [reflexivity|]. rewrite !app_length in *. lia.
  - exists (t ++ R). rewrite app_assoc. split; [reflexivity|]. rewrite !app_length in *. cbn [List.length] in *. lia.
Qed.
Lemma in_place_err A G b junk m e : m = A ++ G ++ b ++ 0%Z :: junk -> in_place A G b junk (IFail m e) (Err e).
Proof. intros ->. exists (G ++ b ++ 0%Z :: junk). auto. Qed.
Lemma ibuf_st A G R : ibuf (stt A G R) = A ++ G ++ R.
Proof. reflexivity. Qed.
Lemma iconsume_st x e A G c R : iconsume x e (stt A G (c :: R)) = if c =? x then Ok (stt A (G ++ [c]) R) else Err e.
Proof. unfold iconsume. rewrite ipeek_st. cbn [bind]. destruct (c =? x); [|reflexivity]. rewrite itake_st. reflexivity. Qed.

Ltac same_buffer := apply in_place_err; rewrite ibuf_st; repeat progress (cbn [app]; rewrite <- ?app_assoc); reflexivity.
Lemma ip_string_st fuel : forall A G b junk, nz b -> safe b junk -> (List.length b < fuel)%nat ->
  in_place A G b junk (ip_string fuel (stt A G (b ++ 0%Z :: junk))) (parse_string fuel b).
Proof.
  induction fuel as [|fuel IH]; intros A G b junk Hn HS HL; [lia|].
  assert (Go : forall t u r G1, b = u ++ r -> nz r -> safe r junk -> (1 <= List.length u)%nat ->
             (List.length t + List.length G1 = List.length G + List.length u)%nat ->
             in_place A G b junk (ip_string fuel (stt (A ++ t) G1 (r ++ 0%Z :: junk))) (let* (s, r') := parse_string fuel r in Ok (t ++ s, r'))).
  { intros t u r G1 Eb Nr Sr L1 L2. rewrite Eb in HL. rewrite app_length in HL. eapply in_place_go; [apply IH; [exact Nr|exact Sr|lia]|exists u; exact Eb|].
    rewrite Eb, app_length. lia. }
  cbn [ip_string parse_string]. cbv zeta. destruct b as [|c b1]; cbn [app]; rewrite ipeek_st; cbn [ibind].
  { change (0 =? 92) with false. change (0 =? 34) with false. change (0 <? 32) with true. change (0 =? 0) with true. cbn [ibind]. cbv iota. same_buffer. }
  apply nz_cons in Hn as [Hc Hn]. destruct (Z.eqb_spec c 92) as [->|C92].
  { rewrite itake_st. cbn [ibind]. destruct b1 as [|e b2]; cbn [app]; rewrite ipeek_st; cbn [ibind].
    { change (escape_char 0) with (@None Z). change (0 =? 117) with false. cbv iota. same_buffer. }
    apply nz_cons in Hn as [He Hn]. apply safe_tl in HS as HS1; [|lia].
    destruct (escape_char e) as [x|] eqn:Ex.
    { rewrite itake_st. cbn [ibind]. rewrite <- app_assoc. cbn [app]. apply escape_char_ascii in Ex as A1. apply safe_tl in HS1 as HS2; [|lia].
      destruct G as [|g G]; cbn [app]; rewrite iput_st; cbn [ibind].
      - exact (Go [x] [92; e] b2 [e] eq_refl Hn HS2 ltac:(cbn [List.length]; lia) ltac:(cbn [List.length]; lia)).
      - refine (Go [x] [92; e] b2 (G ++ [92; e]) eq_refl Hn HS2 _ _); repeat (rewrite ?app_length; cbn [List.length]); lia. }
    destruct (Z.eqb_spec e 117) as [->|E117]; [|same_buffer].
    rewrite itake_st. cbn [ibind]. rewrite <- app_assoc. cbn [app]. apply safe_tl in HS1 as HS2; [|lia].
    pose proof (ihex_st 4 0 A (G ++ [92; 117]) b2 junk) as HX. destruct (parse_hex 4 0 b2) as [[cp b3]|er|w]; cbn [bind]; [|rewrite HX; same_buffer|contradiction].
    destruct HX as (h & -> & Lh & Ah & HX). rewrite HX. cbn [ibind]. clear HX. apply nz_app in Hn as [_ Hn]. apply safe_app in HS2 as HS3; [|exact Ah].
    rewrite <- app_assoc. cbn [app].
    destruct ((55296 <=? cp) && (cp <=? 56319)).
    2:{ pose proof (utf8_encode_len cp) as U. rewrite iputs_st by (repeat (rewrite ?app_length; cbn [List.length]); lia). cbn [ibind].
        refine (Go (utf8_encode cp) (92 :: 117 :: h) b3 _ eq_refl Hn HS3 _ _); [cbn [List.length]; lia|]. repeat (rewrite ?skipn_length, ?app_length; cbn [List.length]). lia. }
    destruct b3 as [|c1 b3]; cbn [app]; rewrite iconsume_st.
    { change (0 =? 92) with false. cbn [ibind]. cbv iota. same_buffer. }
    assert (Er : forall X, A ++ G ++ 92 :: 117 :: (h ++ X) ++ 0%Z :: junk = A ++ G ++ (92 :: 117 :: h ++ X) ++ 0%Z :: junk) by reflexivity.
    destruct (Z.eqb_spec c1 92) as [->|N1]; cbn [ibind].
    2:{ replace (match c1 with 92 => _ | _ => _ end) with (Err E_string_unicode_surrogate_invalid : res (bytes * bytes)) by (destruct c1 as [|c1|c1]; try reflexivity; repeat (destruct c1 as [c1|c1|]; try reflexivity); exfalso; apply N1; reflexivity).
        same_buffer. }
    apply nz_cons in Hn as [_ Hn]. apply safe_tl in HS3 as HS4; [|lia].
    destruct b3 as [|c2 b4]; cbn [app]; rewrite iconsume_st.
    { change (0 =? 117) with false. cbn [ibind]. cbv iota. same_buffer. }
    destruct (Z.eqb_spec c2 117) as [->|N2]; cbn [ibind].
    2:{ replace (match c2 with 117 => _ | _ => _ end) with (Err E_string_unicode_surrogate_invalid : res (bytes * bytes)) by (destruct c2 as [|c2|c2]; try reflexivity; repeat (destruct c2 as [c2|c2|]; try reflexivity); exfalso; apply N2; reflexivity).
        same_buffer. }
    apply nz_cons in Hn as [_ Hn]. apply safe_tl in HS4 as HS5; [|lia].
    match goal with |- context [ihex 4 0 (stt A ?g _)] => pose proof (ihex_st 4 0 A g b4 junk) as HX end. destruct (parse_hex 4 0 b4) as [[cp2 b5]|er|w]; cbn [bind]; [|rewrite HX; same_buffer|contradiction].
    destruct HX as (h2 & -> & Lh2 & Ah2 & HX). rewrite HX. cbn [ibind]. clear HX. apply nz_app in Hn as [_ Hn]. apply safe_app in HS5 as HS6; [|exact Ah2].
    destruct ((cp2 <? 56320) || (57343 <? cp2)); [same_buffer|].
    set (t := utf8_encode _). assert (Lt : (List.length t <= 4)%nat) by apply utf8_encode_len.
    rewrite iputs_st by (repeat (rewrite ?app_length; cbn [List.length]); lia). cbn [ibind].
    refine (Go t (92 :: 117 :: h ++ 92 :: 117 :: h2) b5 _ _ Hn HS6 _ _); [cbn [app]; rewrite <- app_assoc; reflexivity|cbn [List.length]; lia|].
    repeat (rewrite ?skipn_length, ?app_length; cbn [List.length]). lia. }
  destruct (Z.eqb_spec c 34) as [->|C34].
  { rewrite itake_st. cbn [ibind]. unfold in_place. split; [eapply safe_tl; eauto; lia|]. split; [exists [34]; reflexivity|].
    destruct G as [|g G]; cbn [app]; rewrite iput_st; cbn [ibind].
    - exists []. split; [reflexivity|cbn [List.length]; lia].
    - exists (G ++ [34]). split; [reflexivity|]. repeat (rewrite ?app_length; cbn [List.length]). lia. }
  destruct (c <? 32) eqn:C32.
  { destruct (Z.eqb_spec c 0); [congruence|]. same_buffer. }
  pose proof (ivalidate_st A G c b1 junk HS) as V. destruct (utf8_validate (c :: b1)) as [n|] eqn:UV.
  - destruct V as (G' & -> & L' & L1). cbn [ibind].
    refine (Go (firstn n (c :: b1)) (firstn n (c :: b1)) (skipn n (c :: b1)) G' _ _ (safe_char _ _ _ _ HS UV) _ _).
    + symmetry. apply firstn_skipn.
    + assert (Hcb : nz (firstn n (c :: b1) ++ skipn n (c :: b1))) by (rewrite firstn_skipn; apply nz_cons; auto). apply nz_app in Hcb as [_ Hcb]. exact Hcb.
    + rewrite firstn_length. lia.
    + lia.
  - destruct V as (A' & G' & R' & -> & L'). cbn [ibind]. rewrite ibuf_st, <- app_assoc. eexists. split; [reflexivity|exact L'].
Qed.

(** ** One step *)
(** The text of a view in a buffer, and the token it stands for. *)
Definition text_at (m : bytes) (a n : nat) : bytes := firstn n (skipn a m).
Definition shown (m : bytes) (v : view) : token :=
  match v with
  | VNull => TkNull
  | VBool b => TkBool b
  | VString a n => TkString (text_at m a n)
  | VStartObject => TkStartObject
  | VKey a n => TkKey (text_at m a n)
  | VEndObject => TkEndObject
  | VStartArray => TkStartArray
  | VEndArray => TkEndArray
  end.
(** The view lies before the place [p] of the buffer [m], a string (but not a
    number) with a NUL behind it. *)
Definition settled (m : bytes) (p : nat) (v : view) : Prop :=
  match v with
  | VString a n => (a + n <= p)%nat /\ ((a + n < p)%nat /\ nth_error m (a + n) = Some 0 \/ number_text (text_at m a n))
  | VKey a n => (a + n < p)%nat /\ nth_error m (a + n) = Some 0
  | _ => True
  end.

Lemma ascii_lit p : forallb (fun c => (0 <=? c) && (c <? 128)) p = true -> ascii p.
Proof. intros H. apply Forall_forall. intros c Hc. rewrite forallb_forall in H. apply H in Hc. lia. Qed.
Lemma step_reads st stk c b st' stk' t r : c <> 34 -> nz (c :: b) -> step st stk (c :: b) = Ok (st', stk', t, r) ->
  exists u, c :: b = u ++ r /\ ascii u /\ (forall s, t = Some (TkString s) -> s = u /\ number_text u) /\ (forall s, t <> Some (TkKey s)).
Proof.
  intros N34 Hnz H. unfold step in H.
  assert (One : forall (x : Z), c = x -> 0 <= x < 128 -> (forall s, t <> Some (TkString s)) -> (forall s, t <> Some (TkKey s)) -> r = b ->
            exists u, c :: b = u ++ r /\ ascii u /\ (forall s, t = Some (TkString s) -> s = u /\ number_text u) /\ (forall s, t <> Some (TkKey s))).
  { intros x -> Hx T K ->. exists [x]. split; [reflexivity|]. split; [repeat constructor; lia|]. split; [intros s E; exfalso; exact (T s E)|exact K]. }
  assert (V : forall k, (forall t0 r0, k = Ok (t0, r0) -> exists u, c :: b = u ++ r0 /\ ascii u /\ (forall s, t0 = TkString s -> s = u /\ number_text u) /\ (forall s, t0 <> TkKey s)) ->
    match after st with Some st'0 => let* (t, r) := k in Ok (st'0, stk, Some t, r) | None => Err (handle_error st) end = Ok (st', stk', t, r) ->
    exists u, c :: b = u ++ r /\ ascii u /\ (forall s, t = Some (TkString s) -> s = u /\ number_text u) /\ (forall s, t <> Some (TkKey s))).
  { intros k Hk. destruct (after st); [|discriminate]. intros H1. apply bind_Ok in H1 as ((t0 & r0) & H1 & H2).
    assert (E1 : t = Some t0) by congruence. assert (E2 : r = r0) by congruence. subst t r. destruct (Hk _ _ H1) as (u & A & B & C & D). exists u.
    split; [exact A|]. split; [exact B|]. split; [intros s E; apply C; congruence|intros s E; apply (D s); congruence]. }
  assert (Lit : forall p tk, ascii p -> (forall s, tk <> TkString s) -> (forall s, tk <> TkKey s) -> forall t0 r0, literal p tk (c :: b) = Ok (t0, r0) ->
     exists u, c :: b = u ++ r0 /\ ascii u /\ (forall s, t0 = TkString s -> s = u /\ number_text u) /\ (forall s, t0 <> TkKey s)).
  { intros p tk Ap T K t0 r0 L. unfold literal in L. destruct (strip p (c :: b)) as [r'|] eqn:S1; [|discriminate L].
    assert (E1 : t0 = tk) by congruence. assert (E2 : r0 = r') by congruence. subst. apply strip_spec in S1. exists p. split; [exact S1|]. split; [exact Ap|].
    split; [intros s E; exfalso; exact (T s E)|exact K]. }
  destruct (Z.eqb_spec c 91) as [E|]. { destruct (after st); [|discriminate]. injection H as _ _ <- <-. eapply One; eauto; try lia; intros; discriminate. }
  destruct (Z.eqb_spec c 123) as [E|]. { destruct (after st); [|discriminate]. injection H as _ _ <- <-. eapply One; eauto; try lia; intros; discriminate. }
  destruct (Z.eqb_spec c 93) as [E|]. { destruct st; try discriminate; destruct stk; try discriminate; injection H as _ _ <- <-; eapply One; eauto; try lia; intros; discriminate. }
  destruct (Z.eqb_spec c 125) as [E|]. { destruct st; try discriminate; destruct stk; try discriminate; injection H as _ _ <- <-; eapply One; eauto; try lia; intros; discriminate. }
  destruct (Z.eqb_spec c 44) as [E|]. { destruct st; try discriminate; injection H as _ _ <- <-; eapply One; eauto; try lia; intros; discriminate. }
  destruct (Z.eqb_spec c 58) as [E|]. { destruct st; try discriminate; injection H as _ _ <- <-; eapply One; eauto; try lia; intros; discriminate. }
  destruct (Z.eqb_spec c 34) as [E|]; [contradiction|].
  destruct (c =? 110). { eapply V; [|exact H]. apply Lit; [apply ascii_lit; reflexivity|intros; discriminate|intros; discriminate]. }
  destruct (c =? 116). { eapply V; [|exact H]. apply Lit; [apply ascii_lit; reflexivity|intros; discriminate|intros; discriminate]. }
  destruct (c =? 102). { eapply V; [|exact H]. apply Lit; [apply ascii_lit; reflexivity|intros; discriminate|intros; discriminate]. }
  eapply V; [|exact H]. intros t0 r0 H1. apply bind_Ok in H1 as ((s' & r') & H1 & H2).
  assert (E1 : t0 = TkString s') by congruence. assert (E2 : r0 = r') by congruence. subst. apply parse_number_sound in H1 as (E3 & F & _).
  exists s'. split; [exact E3|]. assert (NT : number_text s') by (apply number_fits_text; exact F). split.
  - destruct NT as (m & i & f & e & -> & Hm & Hi & Hf & He). unfold ascii. rewrite !Forall_app.
    assert (Dg : forall d, digits d -> ascii d) by (intros d; apply Forall_impl; intros; lia).
    split; [destruct Hm as [->| ->]; repeat constructor; lia|]. split.
    { destruct Hi as [->|(x & d & -> & Hx & Hd)]; [repeat constructor; lia|constructor; [lia|apply Dg; exact Hd]]. }
    split. { destruct Hf as [->|(d & -> & _ & Hd)]; [constructor|constructor; [lia|apply Dg; exact Hd]]. }
    destruct He as [->|(x & sg & d & -> & Hx & Hs & _ & Hd)]; [constructor|]. constructor; [lia|]. apply Forall_app. split; [|apply Dg; exact Hd].
    destruct Hs as [->|[->| ->]]; repeat constructor; lia.
  - split; [intros s E; split; [congruence|exact NT]|intros s; discriminate].
Qed.
Lemma number_undef b w : parse_number b <> Undef w.
Proof.
  unfold parse_number. destruct (take_opt [45] b) as [sgn b1]. unfold parse_int_part.
  assert (X : forall i b2, (let* (f, b3) := parse_frac_part b2 in let* (e, b4) := parse_exp_part (exp_frac i (tl f)) b3 in Ok (sgn ++ i ++ f ++ e, b4)) <> Undef w).
  { intros i b2. unfold parse_frac_part. assert (Y : forall f b3, (let* (e, b4) := parse_exp_part (exp_frac i (tl f)) b3 in Ok (sgn ++ i ++ f ++ e, b4)) <> Undef w).
    { intros f b3. unfold parse_exp_part. destruct b3 as [|c b3]; [discriminate|]. destruct (_ || _); [|discriminate]. destruct (take_opt _ b3) as [sg b5]. destruct (span_digits b5) as [d r].
      destruct d; [discriminate|]. destruct (_ && _); discriminate. }
    destruct b2 as [|c b2]; [apply Y|]. destruct (c =? 46); [|apply Y]. destruct (span_digits b2) as [d r]. destruct d; [discriminate|]. apply Y. }
  destruct b1 as [|c b1]; [discriminate|]. destruct (c =? 48); [apply X|]. destruct (is_dig c); [|discriminate]. destruct (span_digits (c :: b1)) as [d r]. apply X.
Qed.
Lemma step_undef st stk c b w : c <> 34 -> step st stk (c :: b) <> Undef w.
Proof.
  intros N34 H. unfold step in H.
  assert (V : forall k : res (token * bytes), (forall x, k <> Undef x) -> match after st with Some st'0 => let* (t, r) := k in Ok (st'0, stk, Some t, r) | None => Err (handle_error st) end = Undef w -> False).
  { intros k Hk. destruct (after st); [|discriminate]. destruct k as [[t r]|e|x]; try discriminate. intros _. exact (Hk x eq_refl). }
  assert (Lit : forall p tk x, literal p tk (c :: b) <> Undef x) by (intros p tk x; unfold literal; destruct (strip p (c :: b)); discriminate).
  destruct (c =? 91). { destruct (after st); discriminate. }
  destruct (c =? 123). { destruct (after st); discriminate. }
  destruct (c =? 93). { destruct st; try discriminate; destruct stk; discriminate. }
  destruct (c =? 125). { destruct st; try discriminate; destruct stk; discriminate. }
  destruct (c =? 44). { destruct st; discriminate. }
  destruct (c =? 58). { destruct st; discriminate. }
  destruct (Z.eqb_spec c 34) as [E|]; [contradiction|].
  destruct (c =? 110); [eapply V; [|exact H]; apply Lit|].
  destruct (c =? 116); [eapply V; [|exact H]; apply Lit|].
  destruct (c =? 102); [eapply V; [|exact H]; apply Lit|].
  eapply V; [|exact H]. intros x E. destruct (parse_number (c :: b)) as [[n9 r9]|e9|y9] eqn:N9; try discriminate E. exact (number_undef _ _ N9).
Qed.

(** A step at the text [b], which stands in the buffer after [pre]. *)
Lemma istep_st st stk pre b junk : nz b -> safe b junk ->
  match step st stk b with
  | Ok (st', stk', t, r) => exists v X, istep st stk (pre ++ b ++ 0%Z :: junk) (List.length pre) b = SOk st' stk' v (pre ++ X ++ r ++ 0%Z :: junk) (List.length (pre ++ X)) /\
      (exists u, b = u ++ r /\ List.length u = List.length X) /\ nz r /\ safe r junk /\
      match v, t with
      | Some v, Some t => shown (pre ++ X ++ r ++ 0%Z :: junk) v = t /\ settled (pre ++ X ++ r ++ 0%Z :: junk) (List.length (pre ++ X)) v
      | None, None => True
      | _, _ => False
      end
  | Err e => exists R, istep st stk (pre ++ b ++ 0%Z :: junk) (List.length pre) b = SFail (pre ++ R) e /\ List.length R = List.length (b ++ 0%Z :: junk)
  | Undef _ => False
  end.
Proof.
  intros Hn HS. destruct b as [|c b].
  { unfold step, istep. unfold step. change (parse_number []) with (@Err (bytes * bytes) E_value_invalid). cbn [bind].
    destruct (after st); eexists; (split; [reflexivity|reflexivity]). }
  destruct (Z.eqb_spec c 34) as [->|N34].
  2:{ unfold istep. rewrite (proj2 (Z.eqb_neq c 34) N34). destruct (step st stk (c :: b)) as [[[[st' stk'] t] r]|e|w] eqn:E.
      - destruct (step_reads _ _ _ _ _ _ _ _ N34 Hn E) as (u & Eb & Au & Hs & Hk). rewrite Eb. rewrite Eb in Hn, HS. apply nz_app in Hn as [_ Hr]. apply safe_app in HS; [|exact Au].
        exists (option_map (fun t => view_of t (List.length pre) (List.length (u ++ r) - List.length r)) t), u.
        assert (Lu : (List.length (u ++ r) - List.length r = List.length u)%nat) by (rewrite app_length; lia). rewrite Lu.
        split; [rewrite app_length, <- app_assoc; reflexivity|]. split; [exists u; auto|]. split; [exact Hr|]. split; [exact HS|].
        destruct t as [t|]; cbn [option_map]; [|exact I]. destruct t; cbn [view_of shown settled]; try (split; [reflexivity|exact I]).
        + destruct (Hs s eq_refl) as [-> NT]. unfold text_at. rewrite skipn_app, skipn_all, Nat.sub_diag. cbn [skipn app]. rewrite firstn_app, firstn_all, Nat.sub_diag. cbn [firstn]. rewrite app_nil_r.
          split; [reflexivity|]. split; [rewrite app_length; lia|]. right. exact NT.
        + exfalso. exact (Hk s eq_refl).
      - eexists. split; reflexivity.
      - exact (step_undef _ _ _ _ _ N34 E). }
  apply nz_cons in Hn as [_ Hn]. apply safe_tl in HS; [|lia].
  pose proof (ip_string_st (S (List.length b)) (pre ++ [34%Z]) [] b junk Hn HS ltac:(lia)) as H.
  assert (E0 : stt (pre ++ [34%Z]) [] (b ++ 0%Z :: junk) = IS (pre ++ 34 :: b ++ 0%Z :: junk) (S (List.length pre)) (S (List.length pre))).
  { unfold stt. rewrite app_length, <- app_assoc. cbn [List.length app]. f_equal; lia. }
  rewrite E0 in H. clear E0. unfold istep, step. cbn [app]. change (34 =? 34) with true. change (34 =? 91) with false. change (34 =? 123) with false. change (34 =? 93) with false.
  change (34 =? 125) with false. change (34 =? 44) with false. change (34 =? 58) with false. cbv iota. change (List.length (34 :: b)) with (S (List.length b)).
  unfold in_place in H. destruct (parse_string (S (List.length b)) b) as [[s r]|e|w]; [| |contradiction].
  - destruct H as (Sr & (u & ->) & G' & -> & L). apply nz_app in Hn as [_ Hr]. unfold stt. cbn [ibuf isrc idst bind].
    assert (D : (List.length ((pre ++ [34%Z]) ++ s ++ [0%Z]) - 1 - S (List.length pre) = List.length s)%nat) by (rewrite !app_length; cbn [List.length]; lia). rewrite D. clear D.
    assert (EM : ((pre ++ [34%Z]) ++ s ++ [0]) ++ G' ++ r ++ 0%Z :: junk = pre ++ (34 :: s ++ 0 :: G') ++ r ++ 0%Z :: junk) by (rewrite <- !app_assoc; cbn [app]; rewrite <- !app_assoc; reflexivity).
    rewrite EM. clear EM. assert (EP : (List.length ((pre ++ [34%Z]) ++ s ++ [0%Z]) + List.length G' = List.length (pre ++ 34%Z :: s ++ 0%Z :: G'))%nat) by (repeat (rewrite ?app_length; cbn [List.length]); lia).
    rewrite EP. clear EP. set (m := pre ++ (34 :: s ++ 0 :: G') ++ r ++ 0%Z :: junk).
    assert (T : text_at m (S (List.length pre)) (List.length s) = s).
    { unfold text_at, m. rewrite skipn_app, skipn_all2 by lia. replace (S (List.length pre) - List.length pre)%nat with 1%nat by lia. cbn [skipn app]. rewrite <- app_assoc.
      rewrite firstn_app, firstn_all, Nat.sub_diag. cbn [firstn]. apply app_nil_r. }
    assert (Z0 : nth_error m (S (List.length pre) + List.length s) = Some 0).
    { unfold m. rewrite nth_error_app2 by lia. replace (S (List.length pre) + List.length s - List.length pre)%nat with (S (List.length s)) by lia. cbn [nth_error app].
      rewrite <- app_assoc. rewrite nth_error_app2 by lia. rewrite Nat.sub_diag. reflexivity. }
    assert (B : (S (List.length pre) + List.length s < List.length (pre ++ 34%Z :: s ++ 0%Z :: G'))%nat) by (repeat (rewrite ?app_length; cbn [List.length]); lia).
    assert (LX : exists u', 34 :: u ++ r = u' ++ r /\ List.length u' = List.length (34 :: s ++ 0 :: G')).
    { exists (34 :: u). split; [reflexivity|]. repeat (rewrite ?app_length in *; cbn [List.length] in *). lia. }
    subst m. destruct st; cbn [after]; try (eexists; split; reflexivity);
      (eexists (Some _), (34 :: s ++ 0 :: G'); split; [reflexivity|]; split; [exact LX|]; split; [exact Hr|]; split; [exact Sr|]; cbn [shown settled]; rewrite T; split; [reflexivity|]);
      (split; [first [lia|exact B]|]) || idtac; try (left; split; [exact B|exact Z0]); try exact Z0.
  - destruct H as (R & -> & L). cbn [bind].
    assert (LR : List.length (34 :: R) = List.length (34 :: b ++ 0%Z :: junk)) by (cbn [List.length]; f_equal; exact L).
    destruct st; cbn [after]; try (eexists; split; [rewrite <- app_assoc; reflexivity|exact LR]); (eexists; split; reflexivity).
Qed.

(** ** One call *)
Lemma existsb_zero b junk : existsb (Z.eqb 0) (b ++ 0%Z :: junk) = true.
Proof. rewrite existsb_app. cbn [existsb]. rewrite Z.eqb_refl. cbn [orb]. apply orb_true_r. Qed.
Lemma cstr_at b junk : nz b -> cstr (b ++ 0%Z :: junk) = b.
Proof.
  induction 1 as [|c b Hc Hb IH]; cbn [app cstr]; [reflexivity|]. rewrite (proj2 (Z.eqb_neq c 0) Hc), IH. reflexivity.
Qed.
Lemma text_from_at pre b junk : nz b -> text_from (pre ++ b ++ 0%Z :: junk) (List.length pre) = Some b.
Proof.
  intros H. unfold text_from. rewrite skipn_app, skipn_all, Nat.sub_diag. cbn [skipn app]. rewrite existsb_zero, cstr_at by exact H. reflexivity.
Qed.
Lemma skip_ws_split b : exists w, b = w ++ skip_ws b /\ ascii w.
Proof.
  induction b as [|c b (w & E & A)]; cbn [skip_ws]; [exists []; split; [reflexivity|constructor]|].
  destruct (is_ws c) eqn:W; [|exists []; split; [reflexivity|constructor]].
  exists (c :: w). split; [cbn [app]; congruence|]. constructor; [apply is_ws_spec in W; lia|exact A].
Qed.

(** What the reader of Json.v gives from a state on. *)
Definition tokens_from (st : pstate) (stk : list pstate) (b : bytes) : list token * option error :=
  match st with PFinish => ([], None) | _ => P st stk b end.
(** The reader stands before the text [r], in a buffer which begins with [pre] and
    has the size [n]. *)
Definition stands (pre : bytes) (n : nat) (junk : bytes) (s : pull) (r : bytes) : Prop :=
  exists X, pbuf s = pre ++ X ++ r ++ 0%Z :: junk /\ ppos s = List.length (pre ++ X) /\ List.length (pbuf s) = n /\
            nz r /\ safe r junk /\ (pst s = PFinish -> r = []).
Definition called (st : pstate) (stk : list pstate) (pre b junk : bytes) (o : outcome) : Prop :=
  let n := List.length (pre ++ b ++ 0%Z :: junk) in
  match o with
  | OToken v s' => exists r, stands pre n junk s' r /\ (exists u, b = u ++ r) /\ settled (pbuf s') (ppos s') v /\
      tokens_from st stk b = (shown (pbuf s') v :: fst (tokens_from (pst s') (pstk s') r), snd (tokens_from (pst s') (pstk s') r))
  | OComplete s' => st = PFinish /\ s' = Pull (pre ++ b ++ 0%Z :: junk) (List.length pre) st stk
  | OFail m e => tokens_from st stk b = ([], Some e) /\ exists R, m = pre ++ R /\ List.length m = n
  | OBad => False
  end.
Lemma called_more st stk pre b junk X st' stk' r o :
  called st' stk' (pre ++ X) r junk o -> (exists u, b = u ++ r /\ List.length u = List.length X) -> st <> PFinish -> st' <> PFinish ->
  tokens_from st stk b = tokens_from st' stk' r -> called st stk pre b junk o.
Proof.
  intros H (u & -> & L) N N' E. assert (EL : List.length ((pre ++ X) ++ r ++ 0%Z :: junk) = List.length (pre ++ (u ++ r) ++ 0%Z :: junk)) by (rewrite !app_length; lia).
  unfold called in *. rewrite EL in H. destruct o as [v s'|s'|m e|]; [| | |exact H].
  - destruct H as (r' & (X' & A & B & C & D & F & G) & (u' & ->) & S1 & T). exists r'. split; [|split; [exists (u ++ u'); now rewrite app_assoc|split; [exact S1|rewrite E; exact T]]].
    exists (X ++ X'). split; [rewrite A, <- !app_assoc; reflexivity|]. split; [rewrite B, <- !app_assoc; reflexivity|]. auto.
  - exfalso. exact (N' (proj1 H)).
  - destruct H as (T & R & -> & L2). rewrite E. split; [exact T|]. exists (X ++ R). rewrite app_assoc. auto.
Qed.
Lemma P_cons st stk c b : P st stk (c :: b) =
  match step st stk (skip_ws (c :: b)) with
  | Ok (PFinish, stk', t, r) => match skip_ws r with [] => (ocons t [], None) | _ => ([], Some E_document_root_not_singular) end
  | Ok (st', stk', t, r) => (ocons t (fst (P st' stk' r)), snd (P st' stk' r))
  | Err e => ([], Some e)
  | Undef _ => ([], Some E_terminated)
  end.
Proof.
  unfold P at 1. assert (Hk : exists k, k = List.length (c :: b)) by (eexists; reflexivity). destruct Hk as (k & Hk). rewrite <- Hk. cbn [parse].
  destruct (step st stk (skip_ws (c :: b))) as [[[[st' stk'] t] r]|e|w] eqn:S1; try reflexivity.
  apply step_len in S1. pose proof (skip_ws_len (c :: b)) as W.
  assert (F : parse k st' stk' r = P st' stk' r) by (apply parse_fuel; lia).
  rewrite F. destruct st'; try (destruct (P _ stk' r) as [ts e]; reflexivity).
Qed.
Lemma step_finish st stk b st' stk' t r : step st stk b = Ok (st', stk', t, r) -> st' = PFinish -> exists t', t = Some t'.
Proof.
  intros H ->. unfold step in H.
  assert (V : forall k : res (token * bytes), match after st with Some st'0 => let* (t, r) := k in Ok (st'0, stk, Some t, r) | None => Err (handle_error st) end = Ok (PFinish, stk', t, r) -> exists t', t = Some t').
  { intros k. destruct (after st); [|discriminate]. intros E. apply bind_Ok in E as ((t0 & r0) & _ & E). exists t0. congruence. }
  destruct b as [|c b]; [exact (V _ H)|].
  destruct (c =? 91). { destruct (after st); [|discriminate]. injection H as _ _ <- _. eexists. reflexivity. }
  destruct (c =? 123). { destruct (after st); [|discriminate]. injection H as _ _ <- _. eexists. reflexivity. }
  destruct (c =? 93). { destruct st; try discriminate; destruct stk; try discriminate; injection H as _ _ <- _; eexists; reflexivity. }
  destruct (c =? 125). { destruct st; try discriminate; destruct stk; try discriminate; injection H as _ _ <- _; eexists; reflexivity. }
  destruct (c =? 44). { destruct st; discriminate. }
  destruct (c =? 58). { destruct st; discriminate. }
  destruct (c =? 34). { destruct st; try exact (V (let* (s, r') := parse_string (S (List.length b)) b in Ok (TkString s, r')) H); apply bind_Ok in H as ((s' & r') & _ & H); discriminate H. }
  destruct (c =? 110); [exact (V _ H)|]. destruct (c =? 116); [exact (V _ H)|]. destruct (c =? 102); exact (V _ H).
Qed.

Lemma icall_st fuel : forall st stk pre b junk, nz b -> safe b junk -> (st = PFinish -> b = []) -> (List.length b < fuel)%nat ->
  called st stk pre b junk (icall fuel st stk (pre ++ b ++ 0%Z :: junk) (List.length pre)).
Proof.
  induction fuel as [|fuel IH]; intros st stk pre b junk Hn HS Hf HL; [lia|]. cbn [icall]. rewrite text_from_at by exact Hn.
  destruct b as [|c b]. { destruct st; cbn [called]; try (split; [reflexivity|]; exists ([] ++ 0%Z :: junk); split; reflexivity). split; reflexivity. }
  assert (NF : st <> PFinish) by (intros X; specialize (Hf X); discriminate Hf). clear Hf.
  assert (TF : tokens_from st stk (c :: b) = P st stk (c :: b)) by (destruct st; try reflexivity; contradiction).
  cbv zeta. destruct (skip_ws_split (c :: b)) as (w & Ew & Aw). set (b1 := skip_ws (c :: b)) in *.
  assert (Hn1 : nz b1) by (rewrite Ew in Hn; apply nz_app in Hn; tauto). assert (HS1 : safe b1 junk) by (rewrite Ew in HS; eapply safe_app; eauto).
  assert (Lw : (List.length w + List.length b1 = List.length (c :: b))%nat) by (rewrite <- app_length; f_equal; symmetry; exact Ew).
  assert (EM : pre ++ (c :: b) ++ 0%Z :: junk = (pre ++ w) ++ b1 ++ 0%Z :: junk) by (rewrite Ew, <- !app_assoc; reflexivity).
  assert (EP : (List.length pre + (List.length (c :: b) - List.length b1) = List.length (pre ++ w))%nat) by (rewrite app_length; lia).
  rewrite EM, EP. pose proof (P_cons st stk c b) as HP. fold b1 in HP.
  pose proof (istep_st st stk (pre ++ w) b1 junk Hn1 HS1) as H. destruct (step st stk b1) as [[[[st' stk'] t] r]|e|x] eqn:ES; [| |contradiction].
  2:{ destruct H as (R & -> & L). cbn [called]. split; [rewrite TF, HP; reflexivity|]. exists (w ++ R). rewrite app_assoc. split; [reflexivity|]. rewrite EM, !(app_length (pre ++ w)), L. reflexivity. }
  destruct H as (v & X & -> & (u & Eu & Lu) & Hr & Sr & Hv).
  assert (LX : (List.length X + List.length r = List.length b1)%nat) by (rewrite Eu, app_length; lia).
  assert (Er0 : c :: b = (w ++ u) ++ r) by (rewrite Ew, Eu, app_assoc; reflexivity).
  assert (LB : (List.length (w ++ X) + List.length r = List.length (c :: b))%nat) by (rewrite app_length; lia).
  assert (TOK : forall v0 t0 st1 r1 Y, v = Some v0 -> t = Some t0 -> st1 = PFinish \/ st1 <> PFinish /\ st1 = st' /\ r1 = r -> (st1 = PFinish -> st' = PFinish /\ r1 = [] /\ skip_ws r = []) -> nz r1 -> safe r1 junk ->
     X ++ r = Y ++ r1 -> (exists u1, r = u1 ++ r1) -> (List.length X <= List.length Y)%nat ->
     called st stk pre (c :: b) junk (OToken v0 (Pull ((pre ++ w) ++ X ++ r ++ 0%Z :: junk) (List.length ((pre ++ w) ++ Y)) st1 stk'))).
  { intros v0 t0 st1 r1 Y -> -> C1 C2 N1 S1 EY (u1 & Eu1) LY. destruct Hv as [Hs Ht]. cbn [called pbuf ppos pst pstk]. exists r1. split; [|split; [exists ((w ++ u) ++ u1); rewrite <- app_assoc, <- Eu1; exact Er0|split]].
    - exists (w ++ Y). cbn [pbuf ppos pst]. rewrite <- !app_assoc. rewrite (app_assoc X), EY, <- app_assoc. split; [reflexivity|]. split; [reflexivity|].
      split. { change (c :: b ++ 0%Z :: junk) with ((c :: b) ++ 0%Z :: junk). apply (f_equal (@List.length Z)) in EY. rewrite !app_length in *. lia. }
      split; [exact N1|]. split; [exact S1|]. intros Q. apply C2 in Q. tauto.
    - assert (LE : (List.length ((pre ++ w) ++ X) <= List.length ((pre ++ w) ++ Y))%nat) by (rewrite !(app_length (pre ++ w)); lia).
      destruct v0; cbn [settled] in *; try exact I; destruct Ht as [Ht1 Ht2]; (split; [lia|]); [destruct Ht2 as [[Ht2 Ht3]|Ht2]; [left; split; [lia|exact Ht3]|right; exact Ht2]|exact Ht2].
    - rewrite Hs. rewrite TF, HP. destruct C1 as [->|(C1 & -> & ->)].
      + destruct (C2 eq_refl) as (-> & -> & W). rewrite W. reflexivity.
      + destruct st'; try reflexivity. contradiction. }
  assert (FIN : st' = PFinish -> forall t0 v0, v = Some v0 -> t = Some t0 ->
     called st stk pre (c :: b) junk
      match text_from ((pre ++ w) ++ X ++ r ++ 0%Z :: junk) (List.length ((pre ++ w) ++ X)) with
      | None => OBad
      | Some q => match skip_ws q with
                  | [] => OToken v0 (Pull ((pre ++ w) ++ X ++ r ++ 0%Z :: junk) (List.length ((pre ++ w) ++ X) + (List.length q - List.length (skip_ws q))) PFinish stk')
                  | _ :: _ => OFail ((pre ++ w) ++ X ++ r ++ 0%Z :: junk) E_document_root_not_singular
                  end
      end).
  { intros -> t0 v0 Ev Et. rewrite (app_assoc (pre ++ w)). rewrite text_from_at by exact Hr. rewrite <- (app_assoc (pre ++ w) X).
    destruct (skip_ws_split r) as (w2 & Er & A2). destruct (skip_ws r) as [|y r2] eqn:W2.
    - rewrite app_nil_r in Er. cbn [List.length]. replace (List.length ((pre ++ w) ++ X) + (List.length r - 0))%nat with (List.length ((pre ++ w) ++ X ++ w2)) by (subst w2; rewrite !app_length; lia).
      apply (TOK v0 t0 PFinish [] (X ++ w2) Ev Et); [left; reflexivity|auto|constructor|apply (safe_app r); [rewrite Er; exact A2|rewrite app_nil_r; exact Sr]|rewrite app_nil_r; f_equal; exact Er|exists r; now rewrite app_nil_r|rewrite app_length; lia].
    - cbn [called]. split; [rewrite TF, HP; reflexivity|]. exists (w ++ X ++ r ++ 0%Z :: junk). rewrite <- !app_assoc. split; [reflexivity|].
      change (c :: b ++ 0%Z :: junk) with ((c :: b) ++ 0%Z :: junk). repeat rewrite app_length in *. lia. }
  destruct v as [v0|], t as [t0|]; try contradiction.
  - destruct (match st' with PFinish => true | _ => false end) eqn:F.
    + assert (E' : st' = PFinish) by (destruct st'; try discriminate F; reflexivity). specialize (FIN E' t0 v0 eq_refl eq_refl). clear - FIN E'. rewrite E'. exact FIN.
    + assert (N' : st' <> PFinish) by (intros Q; rewrite Q in F; discriminate F).
      assert (G : called st stk pre (c :: b) junk (OToken v0 (Pull ((pre ++ w) ++ X ++ r ++ 0%Z :: junk) (List.length ((pre ++ w) ++ X)) st' stk'))).
      { apply (TOK v0 t0 st' r X eq_refl eq_refl); [right; auto|intros Q; contradiction|exact Hr|exact Sr|reflexivity|exists []; reflexivity|lia]. }
      clear - G F. destruct st'; try exact G. discriminate F.
  - assert (N' : st' <> PFinish) by (intros Q; destruct (step_finish _ _ _ _ _ _ _ ES Q) as (? & E); discriminate E).
    assert (G : called st stk pre (c :: b) junk (icall fuel st' stk' (((pre ++ w) ++ X) ++ r ++ 0%Z :: junk) (List.length ((pre ++ w) ++ X)))).
    { eapply (called_more st stk pre (c :: b) junk (w ++ X) st' stk' r); [rewrite app_assoc; apply IH; [exact Hr|exact Sr|contradiction|]|exists (w ++ u); split; [exact Er0|rewrite !app_length; lia]|exact NF|exact N'|].
      - apply step_len in ES. lia.
      - rewrite TF, HP. destruct st'; try (unfold tokens_from; cbn [ocons]; symmetry; apply surjective_pairing). contradiction. }
    rewrite <- (app_assoc (pre ++ w) X) in G. clear - G N'. destruct st'; exact G.
Qed.
