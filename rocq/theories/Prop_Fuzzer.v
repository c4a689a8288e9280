(** * C57: the fuzzing entry point *)
From Verif Require Import Base Stream TypedBin Hex Name Json Abi AbiScalar AbiBin AbiJson AbiDef Capi CapiSpec CapiFacts CapiPtr CapiPtrSpec CapiPtrFacts KeysFacts AbiScalarFacts Prop_AbiBin Prop_AbiJson Prop_Capi Prop_CapiPtr Fuzzer FuzzerSpec.

(** ** Reading the input *)
Lemma at_app x y z n : n = List.length y -> at_ (x ++ y ++ z) (List.length x) n = y.
Proof.
  intros ->. unfold at_. rewrite skipn_app, skipn_all2 by lia. rewrite Nat.sub_diag. cbn [skipn app].
  rewrite firstn_app, firstn_all, Nat.sub_diag. cbn [firstn]. now rewrite app_nil_r.
Qed.
Lemma at_app' x y z p n : p = List.length x -> n = List.length y -> at_ (x ++ y ++ z) p n = y.
Proof. intros -> ->. now apply at_app. Qed.
Lemma skipn_len {A} (x y : list A) n : n = List.length x -> skipn n (x ++ y) = y.
Proof. intros ->. rewrite skipn_app, skipn_all2 by lia. now rewrite Nat.sub_diag. Qed.
(** A piece is found when it is there and ends with a zero. *)
Lemma gzt_ok x y z p n : p = List.length x -> n = List.length y -> zero_ended y -> get_zero_terminated (x ++ y ++ z) p n = Ok (Some p, (p + n)%nat).
Proof.
  intros -> -> (w & ->). unfold get_zero_terminated. rewrite !app_length. cbn [List.length].
  destruct (Nat.ltb_spec (List.length x + (List.length w + 1 + List.length z) - List.length x) (List.length w + 1)); [lia|].
  destruct (Nat.eqb_spec (List.length x + (List.length w + 1)) (List.length x)); [lia|].
  replace (List.length x + (List.length w + 1))%nat with (S (List.length x + List.length w)) by lia. cbn [char_before].
  rewrite nth_error_app2 by lia. replace (List.length x + List.length w - List.length x)%nat with (List.length w) by lia.
  rewrite <- app_assoc. cbn [app]. rewrite nth_error_app2, Nat.sub_diag by lia. cbn [nth_error bind]. change (negb (0 =? 0)) with false. reflexivity.
Qed.
Lemma gzt_inv buf p n : (p <= List.length buf)%nat ->
  exists q p', get_zero_terminated buf p n = Ok (q, p') /\ (p' <= List.length buf)%nat /\
  (q = None \/ (q = Some p /\ p' = (p + n)%nat /\ exists x y z, buf = x ++ y ++ z /\ p = List.length x /\ n = List.length y /\ zero_ended y)).
Proof.
  intros L. unfold get_zero_terminated. destruct (Nat.ltb_spec (List.length buf - p) n) as [H|H].
  - exists None, p. auto.
  - destruct (Nat.eqb_spec (p + n) p) as [E|E]; [exists None, (p + n)%nat; repeat split; auto; lia|].
    destruct n as [|n]; [lia|]. replace (p + S n)%nat with (S (p + n)) by lia. cbn [char_before].
    assert (B : buf = firstn p buf ++ firstn (S n) (skipn p buf) ++ skipn (S n) (skipn p buf)) by (now rewrite !firstn_skipn).
    assert (L1 : List.length (firstn p buf) = p) by (rewrite firstn_length; lia).
    assert (L2 : List.length (firstn (S n) (skipn p buf)) = S n) by (rewrite firstn_length, skipn_length; lia).
    destruct (nth_error buf (p + n)) as [c|] eqn:N; [|apply nth_error_None in N; lia]. cbn [bind].
    destruct (Z.eqb_spec c 0) as [->|]; cbn [negb].
    + exists (Some p), (S (p + n)). split; [reflexivity|]. split; [lia|]. right. split; [reflexivity|]. split; [lia|].
      exists (firstn p buf), (firstn (S n) (skipn p buf)), (skipn (S n) (skipn p buf)). split; [exact B|]. split; [auto|]. split; [auto|].
      remember (firstn (S n) (skipn p buf)) as y eqn:Y. rewrite B, nth_error_app2 in N by lia. rewrite L1, nth_error_app1 in N by lia.
      replace (p + n - p)%nat with n in N by lia. destruct (exists_last (l := y)) as (w & c & W); [intros ->; discriminate|].
      exists w. rewrite W in L2, N |- *. rewrite app_length in L2. cbn [List.length] in L2. rewrite nth_error_app2 in N by lia.
      replace (n - List.length w)%nat with O in N by lia. cbn [nth_error] in N. congruence.
    + exists None, (S (p + n)). repeat split; auto; lia.
Qed.

Lemma le4 n : Z.of_nat n < 2 ^ 32 -> Z.to_nat (le_val (le_bytes 4 (Z.of_nat n))) = n.
Proof. intros H. rewrite le_val_le_bytes by (change (256 ^ Z.of_nat 4) with (2 ^ 32); lia). lia. Qed.
Lemma input_parts buf bin op k abi type data : input buf bin op k abi type data ->
  exists h, get_header buf = Some h /\ abi_is_bin h = bin /\ operation h = op /\ hcontract h = k /\ abi_size h = List.length abi /\
    get_parts buf h = Ok (Some (24%nat, (24 + List.length abi)%nat, (24 + List.length abi + List.length type)%nat)) /\
    skipn 24 buf = abi ++ type ++ data /\ skipn (24 + List.length abi) buf = type ++ data /\
    skipn (24 + List.length abi + List.length type) buf = data /\ (List.length buf = 24 + List.length abi + List.length type + List.length data)%nat.
Proof.
  intros (pad & na & nt & E & P & K & NA & NT & LA & LT & ZA & ZT & ZD).
  assert (L8 : List.length (le_bytes 8 k) = 8%nat) by apply le_bytes_length.
  assert (LNA : List.length na = 4%nat) by (subst na; apply le_bytes_length). assert (LNT : List.length nt = 4%nat) by (subst nt; apply le_bytes_length).
  remember (le_bytes 8 k) as kb eqn:KB.
  assert (LB : List.length buf = (24 + List.length abi + List.length type + List.length data)%nat).
  { rewrite E, !app_length. cbn [List.length]. lia. }
  assert (A0 : at_ buf 0 1 = [bin]) by (rewrite E; reflexivity).
  assert (A1 : at_ buf 1 1 = [op]) by (rewrite E; reflexivity).
  assert (A8 : at_ buf 8 8 = kb).
  { rewrite E. rewrite (app_assoc [bin; op]). apply at_app'; [rewrite app_length; cbn [List.length]; lia|auto]. }
  assert (A16 : at_ buf 16 4 = na).
  { rewrite E. rewrite (app_assoc [bin; op]), (app_assoc (_ ++ pad)). apply at_app'; [rewrite !app_length; cbn [List.length]; lia|auto]. }
  assert (A20 : at_ buf 20 4 = nt).
  { rewrite E. rewrite (app_assoc [bin; op]), (app_assoc (_ ++ pad)), (app_assoc (_ ++ kb)). apply at_app'; [rewrite !app_length; cbn [List.length]; lia|auto]. }
  assert (F : exists x, buf = x ++ abi ++ type ++ data /\ List.length x = 24%nat).
  { exists ([bin; op] ++ pad ++ kb ++ na ++ nt). split; [rewrite E, <- !app_assoc; reflexivity|]. rewrite !app_length. cbn [List.length]. lia. }
  destruct F as (x & F & LX).
  unfold get_header, sizeof_header. destruct (Nat.ltb_spec (List.length buf) 24); [lia|]. eexists. split; [reflexivity|].
  cbn [abi_is_bin operation hcontract abi_size type_size]. rewrite A0, A1, A8, A16, A20. cbn [le_val].
  split; [lia|]. split; [lia|]. split; [subst kb; apply le_val_le_bytes; change (256 ^ Z.of_nat 8) with (2 ^ 64); lia|].
  assert (SA : Z.to_nat (le_val na) = List.length abi) by (subst na; now apply le4). assert (ST : Z.to_nat (le_val nt) = List.length type) by (subst nt; now apply le4).
  split; [exact SA|]. split.
  - unfold get_parts, sizeof_header. cbn [abi_size type_size]. rewrite SA, ST.
    rewrite F at 1. rewrite (gzt_ok x abi (type ++ data) 24 (List.length abi)) by auto. cbn [bind].
    rewrite F at 1. rewrite app_assoc. rewrite (gzt_ok (x ++ abi) type data) by (auto; rewrite app_length; lia). cbn [bind].
    replace (List.length buf - (24 + List.length abi + List.length type))%nat with (List.length data) by lia.
    assert (F' : buf = ((x ++ abi) ++ type) ++ data ++ []) by (rewrite app_nil_r, F, <- !app_assoc; reflexivity).
    rewrite F' at 1. rewrite (gzt_ok ((x ++ abi) ++ type) data []) by (auto; rewrite !app_length; lia). reflexivity.
  - split; [rewrite F; now apply skipn_len|]. split; [rewrite F, app_assoc; apply skipn_len; rewrite app_length; lia|].
    split; [rewrite F, !app_assoc; apply skipn_len; rewrite !app_length; lia|exact LB].
Qed.
Lemma parts_input buf h : bytes_ok buf -> get_header buf = Some h ->
  get_parts buf h = Ok None \/ exists abi type data, input buf (abi_is_bin h) (operation h) (hcontract h) abi type data.
Proof.
  intros OK H. unfold get_header, sizeof_header in H. destruct (Nat.ltb_spec (List.length buf) 24) as [|L]; [discriminate|].
  assert (Hh : h = Header (le_val (at_ buf 0 1)) (le_val (at_ buf 1 1)) (le_val (at_ buf 8 8)) (Z.to_nat (le_val (at_ buf 16 4))) (Z.to_nat (le_val (at_ buf 20 4)))) by congruence.
  clear H. unfold get_parts, sizeof_header.
  destruct (gzt_inv buf 24 (abi_size h) L) as (qa & pa & -> & La & Ca). cbn [bind].
  destruct (gzt_inv buf pa (type_size h) La) as (qt & pt & -> & Lt & Ct). cbn [bind].
  destruct (gzt_inv buf pt (List.length buf - pt) Lt) as (qd & pd & -> & Ld & Cd). cbn [bind].
  destruct Ca as [->|(-> & -> & xa & abi & ya & Ea & Pa & Na & Za)]; [now left|].
  destruct Ct as [->|(-> & -> & xt & type & yt & Et & Pt & Nt & Zt)]; [now left|].
  destruct Cd as [->|(-> & -> & xd & data & yd & Ed & Pd & Nd & Zd)]; [now left|]. right. exists abi, type, data.
  assert (U : forall (a b c d : bytes), a ++ b = c ++ d -> List.length a = List.length c -> a = c /\ b = d).
  { induction a as [|z a IH]; intros b [|z' c] d E N; cbn in *; try lia; auto. injection E as -> E. destruct (IH b c d E ltac:(lia)) as [-> ->]. auto. }
  assert (yd = []) as ->. { rewrite Ed, !app_length in Nd. destruct yd; [reflexivity|cbn [List.length] in Nd; lia]. } rewrite app_nil_r in Ed.
  assert (ya = type ++ yt).
  { rewrite Ea in Et. rewrite (app_assoc xa) in Et. apply U in Et as [_ Et]; [exact Et|]. rewrite app_length. lia. } subst ya.
  assert (yt = data).
  { rewrite Et in Ed. rewrite (app_assoc xt) in Ed. apply U in Ed as [_ Ed]; [exact Ed|]. rewrite app_length. lia. } subst yt.
  assert (O : bytes_ok xa). { rewrite Ea in OK. unfold bytes_ok in *. rewrite Forall_app in OK. tauto. }
  assert (X : xa = at_ buf 0 1 ++ at_ buf 1 1 ++ at_ buf 2 6 ++ at_ buf 8 8 ++ at_ buf 16 4 ++ at_ buf 20 4).
  { rewrite Ea. do 24 (destruct xa as [|? xa]; [discriminate Pa|]). destruct xa; [|cbn in Pa; lia]. reflexivity. }
  assert (OK' : forall p n, bytes_ok (at_ buf p n)).
  { intros p n. unfold at_, bytes_ok. rewrite Forall_forall. intros z Hz. apply (proj1 (Forall_forall _ _) OK).
    rewrite <- (firstn_skipn p buf). apply in_app_iff. right. rewrite <- (firstn_skipn n (skipn p buf)). apply in_app_iff. now left. }
  assert (LL : forall p n, (p + n <= 24)%nat -> List.length (at_ buf p n) = n).
  { intros p n Hp. unfold at_. rewrite firstn_length, skipn_length. lia. }
  assert (B8 : le_bytes 8 (hcontract h) = at_ buf 8 8) by (rewrite Hh; cbn [hcontract]; apply le_bytes_le_val; [apply OK'|now rewrite LL by lia]).
  assert (R : forall p, (p + 4 <= 24)%nat -> 0 <= le_val (at_ buf p 4) < 2 ^ 32).
  { intros p Hp. pose proof (le_val_bound _ (OK' p 4%nat)) as Q. rewrite LL in Q by lia. exact Q. }
  assert (NA : Z.of_nat (List.length abi) = le_val (at_ buf 16 4)) by (rewrite <- Na, Hh; cbn [abi_size]; pose proof (R 16%nat ltac:(lia)); lia).
  assert (NT : Z.of_nat (List.length type) = le_val (at_ buf 20 4)) by (rewrite <- Nt, Hh; cbn [type_size]; pose proof (R 20%nat ltac:(lia)); lia).
  assert (ONE : forall p, (p < 24)%nat -> at_ buf p 1 = [le_val (at_ buf p 1)]).
  { intros p Hp. pose proof (LL p 1%nat ltac:(lia)) as Q. destruct (at_ buf p 1) as [|c [|]]; try discriminate. cbn [le_val]. f_equal. lia. }
  exists (at_ buf 2 6), (at_ buf 16 4), (at_ buf 20 4).
  assert (H0 : at_ buf 0 1 = [abi_is_bin h]) by (rewrite (ONE 0%nat ltac:(lia)), Hh; reflexivity).
  assert (H1 : at_ buf 1 1 = [operation h]) by (rewrite (ONE 1%nat ltac:(lia)), Hh; reflexivity).
  rewrite H0, H1 in X. rewrite B8.
  split; [rewrite Ea at 1; rewrite X at 1; rewrite <- !app_assoc; reflexivity|].
  split; [now rewrite LL by lia|]. split; [rewrite Hh; cbn [hcontract]; pose proof (le_val_bound _ (OK' 8%nat 8%nat)) as Q; rewrite LL in Q by lia; exact Q|].
  split; [rewrite NA; symmetry; apply le_bytes_le_val; [apply OK'|now rewrite LL by lia]|].
  split; [rewrite NT; symmetry; apply le_bytes_le_val; [apply OK'|now rewrite LL by lia]|].
  split; [rewrite NA; apply R; lia|]. split; [rewrite NT; apply R; lia|]. auto.
Qed.

(** ** The calls *)
(** A call whose arguments are outside the context. *)
Definition steady (f : pop) : Prop := forall m, proper m f /\ copied m f = copied created f.
Lemma steady_sim E f m : steady f ->
  (forall x' o, pcall E (Some m) f x' o -> exists m', x' = Some m' /\ call E (Some (view m)) (copied created f) (Some (view m')) (seen_outcome m' o)) /\
  (forall x' o, call E (Some (view m)) (copied created f) x' o -> exists m' o', pcall E (Some m) f (Some m') o' /\ x' = Some (view m') /\ o = seen_outcome m' o').
Proof.
  intros S. destruct (S m) as [P C]. rewrite <- C. split; intros x' o H.
  - exact (C55_arguments E m f x' o P H).
  - exact (C55_copies E m f x' o P H).
Qed.
Lemma calls_plays E l : Forall steady l -> forall m o, calls E m l o <-> plays E (view m) (map (copied created) l) o.
Proof.
  intros F. induction F as [|f l S F IH]; intros m o; cbn [map].
  - split; intros H; inversion H; constructor.
  - destruct (steady_sim E f m S) as [A B]. split; intros H.
    + inversion H as [|m0 f0 m' r l0 o0 C R|m0 f0 m' w l0 C]; subst.
      * destruct (A _ _ C) as (m1 & M1 & D). assert (m' = m1) by congruence. subst m1. cbn [seen_outcome] in D. econstructor; [exact D|]. now apply IH.
      * destruct (A _ _ C) as (m1 & M1 & D). assert (m' = m1) by congruence. subst m1. eapply plays_dies. exact D.
    + inversion H as [|c0 f0 c' r l0 o0 C R|c0 f0 c' w l0 C]; subst.
      * destruct (B _ _ C) as (m1 & o' & P & V & Q). assert (c' = view m1) by congruence. subst c'. destruct o' as [r'|]; [|discriminate]. econstructor; [exact P|]. now apply IH.
      * destruct (B _ _ C) as (m1 & o' & P & V & Q). destruct o' as [r'|w']; [discriminate|]. cbn [seen_outcome] in Q. assert (w' = w) by congruence. subst w'. eapply calls_dies. exact P.
Qed.
Definition same (E : float_lib) (f g : op) : Prop := forall x x' o, call E x f x' o <-> call E x g x' o.
Lemma plays_same E l l' : Forall2 (same E) l l' -> forall c o, plays E c l o -> plays E c l' o.
Proof.
  intros F. induction F as [|f g l l' S F IH]; intros c o H; inversion H; subst.
  - constructor.
  - econstructor; [apply S; eassumption|]. now apply IH.
  - eapply plays_dies. apply S. eassumption.
Qed.
Lemma cstr_zero a r : zero_ended a -> cstr (a ++ r) = cstr a.
Proof.
  intros (x & ->). induction x as [|c x IH]; [reflexivity|]. cbn [app cstr]. destruct (c =? 0); [reflexivity|now rewrite IH].
Qed.
Lemma steady_outside b : In 0 b -> forall m, is_text m (Some (Outside b)).
Proof. intros H m. exists b. auto. Qed.
Lemma zero_in a r : zero_ended a -> In 0 (a ++ r).
Proof. intros (x & ->). apply in_app_iff. left. apply in_app_iff. right. now left. Qed.

Section Input.
Context (E : float_lib) (buf : bytes) (bin op k : Z) (abi type data : bytes) (I : input buf bin op k abi type data).
Lemma zeros : zero_ended abi /\ zero_ended type /\ zero_ended data.
Proof. destruct I as (? & ? & ? & H). tauto. Qed.
Lemma set_same h : abi_is_bin h = bin -> hcontract h = k -> abi_size h = List.length abi -> skipn 24 buf = abi ++ type ++ data ->
  steady (set_call buf h 24) /\ same E (copied created (set_call buf h 24)) (load_op bin k abi).
Proof.
  intros B K A S. unfold set_call, in_buffer, load_op. rewrite B, K, A, S. destruct zeros as (ZA & _). destruct (bin =? 0); cbn [negb].
  - split; [intros m; split; [apply steady_outside; now apply zero_in|reflexivity]|].
    intros x x' o. cbn [copied text_at contents call text_arg]. now rewrite cstr_zero.
  - split; [intros m; split; [|reflexivity]|].
    + exists (abi ++ type ++ data). split; [reflexivity|]. rewrite app_length. lia.
    + intros x x' o. cbn [copied]. unfold data_at, text_at. cbn [contents option_map].
      rewrite firstn_app, firstn_all, Nat.sub_diag. cbn [firstn]. rewrite app_nil_r. reflexivity.
Qed.
Lemma work_same h : operation h = op -> hcontract h = k -> skipn (24 + List.length abi) buf = type ++ data ->
  skipn (24 + List.length abi + List.length type) buf = data -> (List.length buf = 24 + List.length abi + List.length type + List.length data)%nat ->
  let l := work_calls buf h (24 + List.length abi) (24 + List.length abi + List.length type) in
  Forall steady l /\ Forall2 (same E) (map (copied created) l) (convert_ops op k type data).
Proof.
  intros O K S1 S2 LB l. destruct zeros as (_ & ZT & ZD). unfold l, work_calls, in_buffer, convert_ops. rewrite O, K, S1, S2, LB.
  assert (ZD' : In 0 data) by (pose proof (zero_in data [] ZD) as Q; now rewrite app_nil_r in Q).
  destruct (op =? 0); cbn [map].
  - split.
    + repeat constructor; try (apply steady_outside; [now apply zero_in]); try (apply steady_outside; exact ZD').
    + constructor; [|constructor; [|constructor]]; intros x x' o; cbn [copied text_at contents call option_map text_arg]; rewrite (cstr_zero type data ZT); reflexivity.
  - split.
    + constructor; [|constructor]. intros m. split; [|reflexivity]. split; [apply steady_outside; now apply zero_in|].
      exists data. split; [reflexivity|lia].
    + constructor; [|constructor]. intros x x' o. cbn [copied]. unfold data_at. cbn [text_at contents call option_map].
      replace (24 + List.length abi + List.length type + List.length data - (24 + List.length abi + List.length type))%nat with (List.length data) by lia.
      rewrite firstn_all. unfold bin_to_json_call. cbn [text_arg]. rewrite (cstr_zero type data ZT). reflexivity.
Qed.
End Input.

(** ** What the fuzzer does
    On an input: exactly the session it describes, where each call of the library gets exactly its piece. *)
Theorem C57_input E buf bin op k abi type data o : input buf bin op k abi type data ->
  (fuzz E buf o <-> session E (load_op bin k abi) (convert_ops op k type data) o).
Proof.
  intros I. destruct (input_parts _ _ _ _ _ _ _ I) as (h & H & B & O & K & A & P & S0 & S1 & S2 & LB).
  unfold fuzz. rewrite H, P.
  destruct (set_same E buf bin op k abi type data I h B K A S0) as [St Sm].
  destruct (work_same E buf bin op k abi type data I h O K S1 S2 LB) as [Wt Wm].
  destruct (steady_sim E _ created St) as [F G].
  change (view created) with create in F, G. split.
  - intros (m & x & C & R). destruct (F _ _ C) as (m' & M & C'). assert (m' = m) by congruence. subst m'. apply Sm in C'.
    destruct x as [r|w]; [|subst o; eapply load_dies; exact C']. cbn [seen_outcome] in C'.
    destruct r as [[|]|q|q|z]; try (subst o; eapply not_loaded_; [exact C'|]; cbn [seen]; try destruct q; discriminate).
    eapply loaded_; [exact C'|]. eapply plays_same; [exact Wm|]. now apply calls_plays.
  - intros Ss. inversion Ss as [c o' C R|c r C N|c w C]; subst; apply Sm in C; destruct (G _ _ C) as (m & o1 & C1 & V & Q); exists m, o1; (split; [exact C1|]).
    + destruct o1 as [r|]; [|discriminate]. cbn [seen_outcome] in Q. destruct r as [[|]|[?|]|[?|]|z]; try discriminate.
      assert (c = view m) by congruence. subst c. apply calls_plays; [exact Wt|]. eapply plays_same; [|exact R].
      clear -Wm. induction Wm as [|f g l l' S F IH]; constructor; auto. intros x x' o'. symmetry. apply S.
    + destruct o1 as [r1|]; [|discriminate]. cbn [seen_outcome] in Q. destruct r1 as [[|]|?|?|?]; try reflexivity. cbn [seen] in Q. congruence.
    + destruct o1 as [r1|w1]; [discriminate|]. cbn [seen_outcome] in Q. congruence.
Qed.
Print Assumptions C57_input.
(** Any other buffer is left alone. *)
Theorem C57_other E buf o : bytes_ok buf -> (forall bin op k abi type data, ~ input buf bin op k abi type data) ->
  (fuzz E buf o <-> o = Exits 0).
Proof.
  intros OK N. unfold fuzz. destruct (get_header buf) as [h|] eqn:H; [|tauto].
  destruct (parts_input buf h OK H) as [-> |(abi & type & data & I)]; [tauto|]. now apply N in I.
Qed.
Print Assumptions C57_other.
Lemma input_dec buf : bytes_ok buf -> (exists bin op k abi type data, input buf bin op k abi type data) \/ (forall bin op k abi type data, ~ input buf bin op k abi type data).
Proof.
  intros OK. destruct (get_header buf) as [h|] eqn:H.
  - destruct (parts_input buf h OK H) as [P|(abi & type & data & I)]; [|left; do 6 eexists; exact I]. right. intros bin op k abi type data I.
    destruct (input_parts _ _ _ _ _ _ _ I) as (h' & H' & _ & _ & _ & _ & P' & _). congruence.
  - right. intros bin op k abi type data I. destruct (input_parts _ _ _ _ _ _ _ I) as (h' & H' & _). congruence.
Qed.
Lemma plays_ends E l : forall h c, reached E h c -> float_lib_ok E -> Forall args_ok l ->
  exists o, plays E c l o /\ (o = Exits 0 \/ exists w, o = Dies w /\ In w hazards).
Proof.
  induction l as [|f l IH]; intros h c R FO F; [exists (Exits 0); split; [constructor|now left]|].
  inversion F as [|? ? A F']; subst. destruct (C34_every_call_ends E h c f R FO A) as (c' & o & C & U). destruct o as [r|w].
  - assert (R' : reached E (h ++ [(f, r)]) c') by (eapply run_snoc; eauto). destruct (IH _ _ R' FO F') as (o & P & Q).
    exists o. split; [econstructor; eauto|exact Q].
  - exists (Dies w). split; [eapply plays_dies; exact C|]. right. exists w. split; [reflexivity|]. now apply U.
Qed.
(** It always ends, with 0, unless a conversion of the library is one of the undefined ones (C34); it never
    reads outside the buffer. *)
Theorem C57_ends E buf : bytes_ok buf -> short buf -> float_lib_ok E ->
  exists o, fuzz E buf o /\ (o = Exits 0 \/ exists w, o = Dies w /\ In w hazards).
Proof.
  intros OK Sh FO. destruct (input_dec buf OK) as [(bin & op & k & abi & type & data & I)|N].
  - assert (A : forall s, (exists x y, buf = x ++ s ++ y) -> arg_ok (Some s)).
    { intros s (x & y & E0) b [= <-]. subst buf. unfold bytes_ok, short in *. rewrite !Forall_app in OK. rewrite !app_length in Sh. split; [tauto|lia]. }
    pose proof I as (pad & na & nt & E0 & _).
    assert (Aa : arg_ok (Some abi)). { apply A. exists ([bin; op] ++ pad ++ le_bytes 8 k ++ na ++ nt), (type ++ data). rewrite E0, <- !app_assoc. reflexivity. }
    assert (At : arg_ok (Some type)). { apply A. exists ([bin; op] ++ pad ++ le_bytes 8 k ++ na ++ nt ++ abi), data. rewrite E0, <- !app_assoc. reflexivity. }
    assert (Ad : arg_ok (Some data)). { apply A. exists ([bin; op] ++ pad ++ le_bytes 8 k ++ na ++ nt ++ abi ++ type), []. rewrite E0, app_nil_r, <- !app_assoc. reflexivity. }
    assert (L : args_ok (load_op bin k abi)) by (unfold load_op; destruct (bin =? 0); exact Aa).
    assert (W : Forall args_ok (convert_ops op k type data)) by (unfold convert_ops; destruct (op =? 0); repeat (apply Forall_cons || apply Forall_nil); (split; assumption)).
    assert (R0 : reached E [] create) by constructor.
    destruct (C34_every_call_ends E [] create _ R0 FO L) as (c & o & C & U). destruct o as [r|w].
    + assert (D : r = R_bool true \/ r <> R_bool true) by (destruct r as [[|]|?|?|?]; (now left) || (right; discriminate)).
      destruct D as [->|D].
      * assert (R' : reached E ([] ++ [(load_op bin k abi, R_bool true)]) c) by (eapply run_snoc; eauto).
        destruct (plays_ends E _ _ _ R' FO W) as (o & P & Q). exists o. split; [|exact Q]. apply (C57_input E buf bin op k abi type data o I). eapply loaded_; eauto.
      * exists (Exits 0). split; [|now left]. apply (C57_input E buf bin op k abi type data _ I). eapply not_loaded_; eauto.
    + exists (Dies w). split; [|right; exists w; split; [reflexivity|]; now apply U]. apply (C57_input E buf bin op k abi type data _ I). eapply load_dies; eauto.
  - exists (Exits 0). split; [|now left]. now apply C57_other.
Qed.
Print Assumptions C57_ends.
Lemma plays_fun E l : forall c o o', plays E c l o -> plays E c l o' -> o = o'.
Proof.
  induction l as [|f l IH]; intros c o o' H H'; inversion H; inversion H'; subst; auto;
    match goal with A : call _ _ _ _ _, B : call _ _ _ _ _ |- _ => destruct (C34_deterministic _ _ _ _ _ _ _ A B) as [X Y] end; try discriminate.
  - injection X as ->. eapply IH; eauto.
  - congruence.
Qed.
Theorem C57_deterministic E buf o o' : bytes_ok buf -> fuzz E buf o -> fuzz E buf o' -> o = o'.
Proof.
  intros OK. destruct (input_dec buf OK) as [(bin & op & k & abi & type & data & I)|N].
  - rewrite !(C57_input _ _ _ _ _ _ _ _ _ I). intros H H'. inversion H as [c o1 C P|c r C Nr|c w C]; inversion H' as [c' o1' C' P'|c' r' C' Nr'|c' w' C']; subst; auto;
      destruct (C34_deterministic _ _ _ _ _ _ _ C C') as [X Y]; try congruence.
    injection X as ->. eapply plays_fun; eauto.
  - rewrite !(C57_other _ _ _ OK N). congruence.
Qed.
Print Assumptions C57_deterministic.

(** An input: the binary ABI of the C34 examples with a NUL after it, and JSON text to convert. *)
Definition ex_input : bytes :=
  [1; 0] ++ [9; 9; 9; 9; 9; 9] ++ le_bytes 8 5 ++ le_bytes 4 (Z.of_nat (List.length (ex_bytes ++ [0]))) ++ le_bytes 4 5 ++ (ex_bytes ++ [0]) ++ (str "tail" ++ [0]) ++ (ex_text ++ [0]).
Example C57_hypotheses : input ex_input 1 0 5 (ex_bytes ++ [0]) (str "tail" ++ [0]) (ex_text ++ [0]) /\ bytes_ok ex_input /\ short ex_input /\
  load_op 1 5 (ex_bytes ++ [0]) = Set_abi_bin 5 (Some (ex_bytes ++ [0])) /\
  convert_ops 0 5 (str "tail" ++ [0]) (ex_text ++ [0]) =
    [Json_to_bin 5 (Some (str "tail" ++ [0])) (Some (ex_text ++ [0])); Json_to_bin_reorderable 5 (Some (str "tail" ++ [0])) (Some (ex_text ++ [0]))] /\
  (forall bin op k abi type data, ~ input (removelast ex_input) bin op k abi type data) /\ float_lib_ok no_floats.
Proof.
  split. { exists [9; 9; 9; 9; 9; 9], (le_bytes 4 (Z.of_nat (List.length (ex_bytes ++ [0])))), (le_bytes 4 5). split; [reflexivity|]. split; [reflexivity|].
    split; [lia|]. split; [reflexivity|]. split; [reflexivity|]. split; [vm_compute; reflexivity|]. split; [vm_compute; reflexivity|].
    split; [eexists; reflexivity|]. split; eexists; reflexivity. }
  split; [apply bytes_okb_spec; vm_compute; reflexivity|]. split; [vm_compute; reflexivity|]. split; [reflexivity|]. split; [reflexivity|].
  split; [|exact no_floats_ok]. intros bin op k abi type data I. destruct (input_parts _ _ _ _ _ _ _ I) as (h & H & _ & _ & _ & _ & P & _).
  assert (G : match get_header (removelast ex_input) with Some h => get_parts (removelast ex_input) h | None => Ok None end = Ok None) by (vm_compute; reflexivity).
  rewrite H, P in G. discriminate.
Qed.
