(** * DecodeIntoFacts: decoding into an object which has a value (proofs for C54) *)
From Verif Require Import Base Stream StreamFacts TypedBin TypedSpec ValOrder TypedBinFacts TypedBinSound DecodeInto DecodeIntoSpec.

Lemma nthz_map' {A B} (f : A -> B) l : forall i, nthz (map f l) i = option_map f (nthz l i).
Proof. induction l as [|x l IH]; intros i; cbn [map nthz]; [reflexivity|]. destruct (i =? 0); [reflexivity|apply IH]. Qed.
Lemma nthz_In' {A} (l : list A) : forall i x, nthz l i = Some x -> In x l.
Proof. induction l as [|y l IH]; intros i x; cbn [nthz]; [discriminate|]. destruct (i =? 0); [left; congruence|right; eauto]. Qed.
Lemma nthz_error {A} (l : list A) : forall i x, nthz l i = Some x -> 0 <= i -> nth_error l (Z.to_nat i) = Some x.
Proof.
  induction l as [|y l IH]; intros i x; cbn [nthz]; [discriminate|]. destruct (Z.eqb_spec i 0) as [->|N]; [auto|]. intros H Hi.
  replace (Z.to_nat i) with (S (Z.to_nat (i - 1))) by lia. cbn [nth_error]. apply IH; [exact H|lia].
Qed.

(** ** Agreement with decoding into a fresh object *)
(** The result of decoding into an object [old]: [P new r] relates the fresh result and what [old] becomes. *)
Definition agree (P : val -> val -> Prop) (fi : istream -> into) (fd : istream -> res (val * istream)) : Prop :=
  forall s, match fi s with
            | (v, Ok r) => exists new, fd s = Ok (new, r) /\ P new v
            | (_, Err e) => fd s = Err e
            | (_, Undef _) => (exists w, fd s = Undef w) \/ exists e, fd s = Err e
            end.
Definition agree_list (P : list val -> list val -> Prop) (fi : istream -> list val * res istream) (fd : istream -> res (list val * istream)) : Prop :=
  forall s, match fi s with
            | (v, Ok r) => exists new, fd s = Ok (new, r) /\ P new v
            | (_, Err e) => fd s = Err e
            | (_, Undef _) => (exists w, fd s = Undef w) \/ exists e, fd s = Err e
            end.
Definition Same (x y : val) : Prop := x = y.
Inductive all3 (P : val -> val -> val -> Prop) : list val -> list val -> list val -> Prop :=
| N3 : all3 P [] [] []
| C3 x y z a b c : P x y z -> all3 P a b c -> all3 P (x :: a) (y :: b) (z :: c).

Lemma agree_fill (P : val -> val -> val -> Prop) f g l : Forall (fun x => agree (P x) (f x) g) l ->
  agree_list (all3 P l) (fill f l) (read_list g (List.length l)).
Proof.
  induction 1 as [|x l Hx _ IH]; intros s; cbn [fill read_list List.length]; [exists []; split; [reflexivity|constructor]|].
  specialize (Hx s). destruct (f x s) as [v [r|e|w]].
  - destruct Hx as (nv & E & Hp). rewrite E. cbn [bind]. specialize (IH r). destruct (fill f l r) as [l' [r'|e|w]]; cbn [bind].
    + destruct IH as (nl & E2 & Hl). rewrite E2. cbn [bind]. exists (nv :: nl). split; [reflexivity|]. now constructor.
    + now rewrite IH.
    + destruct IH as [(w' & ->)|(e & ->)]; cbn [bind]; eauto.
  - now rewrite Hx.
  - destruct Hx as [(w' & ->)|(e & ->)]; cbn [bind]; eauto.
Qed.
(** Members: [Q t x new r] for the member of type [t] which was [x]. *)
Inductive all_members (Q : ty -> val -> val -> val -> Prop) : list ty -> list val -> list val -> list val -> Prop :=
| NM : all_members Q [] [] [] []
| CM t x y z ts a b c : Q t x y z -> all_members Q ts a b c -> all_members Q (t :: ts) (x :: a) (y :: b) (z :: c).
Lemma agree_members (Q : ty -> val -> val -> val -> Prop) (f : ty -> val -> istream -> into) (g : ty -> istream -> res (val * istream)) ts l :
  Forall2 (fun t x => agree (Q t x) (f t x) (g t)) ts l -> agree_list (all_members Q ts l) (fill_members (map f ts) l) (read_tuple (map g ts)).
Proof.
  induction 1 as [|t x ts l Hx _ IH]; intros s; cbn [map fill_members read_tuple]; [exists []; split; [reflexivity|constructor]|].
  specialize (Hx s). destruct (f t x s) as [v [r|e|w]].
  - destruct Hx as (nv & E & Hp). rewrite E. cbn [bind]. specialize (IH r).
    destruct (fill_members (map f ts) l r) as [l' [r'|e|w]]; cbn [bind].
    + destruct IH as (nl & E2 & Hl). rewrite E2. cbn [bind]. exists (nv :: nl). split; [reflexivity|]. now constructor.
    + now rewrite IH.
    + destruct IH as [(w' & ->)|(e & ->)]; cbn [bind]; eauto.
  - now rewrite Hx.
  - destruct Hx as [(w' & ->)|(e & ->)]; cbn [bind]; eauto.
Qed.
Lemma agree_append f g : agree Same f g -> forall n l, agree_list (fun new r => r = l ++ new) (append f n l) (read_list g n).
Proof.
  intros H. induction n as [|n IH]; intros l s; cbn [append read_list]; [exists []; split; [reflexivity|now rewrite app_nil_r]|].
  specialize (H s). destruct (f s) as [v [r|e|w]].
  - destruct H as (nv & E & <-). rewrite E. cbn [bind]. specialize (IH (l ++ [nv]) r). destruct (append f n (l ++ [nv]) r) as [l' [r'|e|w]]; cbn [bind].
    + destruct IH as (nl & E2 & ->). rewrite E2. cbn [bind]. exists (nv :: nl). split; [reflexivity|]. now rewrite <- app_assoc.
    + now rewrite IH.
    + destruct IH as [(w' & ->)|(e & ->)]; cbn [bind]; eauto.
  - now rewrite H.
  - destruct H as [(w' & ->)|(e & ->)]; cbn [bind]; eauto.
Qed.
Lemma agree_emplace key f g : agree Same f g -> forall n l,
  agree_list (fun new r => r = new) (emplace key f n l) (fun s => let* (a, s) := read_list g n s in let* a := emplace_all key a l in Ok (a, s)).
Proof.
  intros H. induction n as [|n IH]; intros l s; cbn [emplace read_list]; [cbn; eauto|].
  specialize (H s). destruct (f s) as [v [r|e|w]].
  - destruct H as (nv & E & <-). rewrite E. cbn [bind]. destruct (has_nan (key nv)) eqn:N.
    + destruct (read_list g n r) as [[a r']|e|w]; cbn [bind emplace_all]; [rewrite N; cbn [bind]; eauto|eauto|eauto].
    + specialize (IH (set_emplace key nv l) r). destruct (emplace key f n (set_emplace key nv l) r) as [l' [r'|e|w]].
      * destruct IH as (nl & E2 & ->). destruct (read_list g n r) as [[a q]|e|w]; [|discriminate E2..]. cbn [bind emplace_all] in *. rewrite N. eauto.
      * destruct (read_list g n r) as [[a q]|e'|w]; cbn [bind emplace_all] in *; [rewrite N; exact IH|exact IH|discriminate IH].
      * destruct (read_list g n r) as [[a q]|e'|w']; cbn [bind emplace_all] in *; [rewrite N; exact IH|eauto|eauto].
  - now rewrite H.
  - destruct H as [(w' & ->)|(e & ->)]; cbn [bind]; eauto.
Qed.

(** ** Sets: what was there stays and wins *)
Lemma vcmp_eq_sym a b : vcmp a b = Eq -> vcmp b a = Eq.
Proof. intros H. rewrite vcmp_antisym, H. reflexivity. Qed.
Lemma vcmp_eq_trans a b c : vcmp a b = Eq -> vcmp b c = Eq -> vcmp a c = Eq.
Proof.
  intros H K. destruct (vcmp a c) eqn:E; [reflexivity| |].
  - apply vcmp_eq_sym in H. pose proof (vcmp_eq_lt _ _ _ H E). congruence.
  - apply vcmp_gt_lt in E. pose proof (vcmp_eq_lt _ _ _ K E) as X. apply vcmp_eq_sym in H. congruence.
Qed.
Lemma set_emplace_spec key x l : strictly_sorted key l = true ->
  forall y, In y (set_emplace key x l) <-> In y l \/ y = x /\ forall z, In z l -> vcmp (key x) (key z) <> Eq.
Proof.
  induction l as [|z l IH]; intros S y; cbn [set_emplace].
  - cbn [In]. split; [intros [<-|[]]; right; split; [reflexivity|intros ? []]|intros [[]|[-> _]]; auto].
  - cbn [strictly_sorted] in S. apply andb_true_iff in S as [Hz S]. rewrite forallb_forall in Hz.
    destruct (vcmp (key x) (key z)) eqn:E.
    + split; [auto|]. intros [H|[-> H]]; [exact H|]. exfalso. apply (H z); [now left|exact E].
    + cbn [In]. split.
      * intros [<-|H]; [|auto]. right. split; [reflexivity|]. intros w [<-|Hw]; [congruence|]. specialize (Hz w Hw). destruct (vcmp (key z) (key w)) eqn:E2; try discriminate Hz.
        rewrite (vcmp_lt_trans _ _ _ E E2). discriminate.
      * intros [H|[-> _]]; auto.
    + cbn [In]. rewrite (IH S). split.
      * intros [H|[H|[-> H]]]; auto. right. split; [reflexivity|]. intros w [<-|Hw]; [congruence|auto].
      * intros [[H|H]|[-> H]]; auto. right. right. split; [reflexivity|]. intros w Hw. apply H. now right.
Qed.
Lemma emplace_all_union key : forall l old acc1 acc2 r1 r2,
  strictly_sorted key acc1 = true -> strictly_sorted key acc2 = true ->
  (forall x, In x acc1 <-> In x old \/ In x acc2 /\ forall y, In y old -> vcmp (key x) (key y) <> Eq) ->
  emplace_all key l acc1 = Ok r1 -> emplace_all key l acc2 = Ok r2 ->
  forall x, In x r1 <-> In x old \/ In x r2 /\ forall y, In y old -> vcmp (key x) (key y) <> Eq.
Proof.
  induction l as [|a l IH]; intros old acc1 acc2 r1 r2 S1 S2 H E1 E2; cbn [emplace_all] in *; [injection E1 as <-; injection E2 as <-; exact H|].
  destruct (has_nan (key a)); [discriminate E1|]. eapply IH; [| | |exact E1|exact E2]; try (now apply set_emplace_sorted).
  clear IH E1 E2. intros x. rewrite !set_emplace_spec by assumption. rewrite H. split.
  - intros [[K|[K1 K2]]|[-> K]]; [auto|auto|]. right.
    assert (No : forall y, In y old -> vcmp (key a) (key y) <> Eq) by (intros y Hy; apply K, H; now left).
    split; [|exact No]. right. split; [reflexivity|]. intros z Hz Ez.
    destruct (existsb (fun y => match vcmp (key z) (key y) with Eq => true | _ => false end) old) eqn:Q.
    + apply existsb_exists in Q as (y & Hy & Q). destruct (vcmp (key z) (key y)) eqn:E; try discriminate Q. apply (No y Hy). eapply vcmp_eq_trans; eauto.
    + apply (K z); [|exact Ez]. apply H. right. split; [exact Hz|]. intros y Hy E. rewrite <- not_true_iff_false in Q. apply Q, existsb_exists. exists y. split; [exact Hy|]. now rewrite E.
  - intros [K|[[K|[-> K]] No]]; [auto|auto|]. right. split; [reflexivity|]. intros z Hz. apply H in Hz as [Hz|[Hz _]]; auto.
Qed.

(** ** Combining *)
Lemma agree_mono (P Q : val -> val -> Prop) f g : (forall x y, P x y -> Q x y) -> agree P f g -> agree Q f g.
Proof. intros H A s. specialize (A s). destruct (f s) as [v [r|e|w]]; [|exact A..]. destruct A as (nw & E & K). eauto. Qed.
Lemma agree_length (P : val -> val -> Prop) read old fi fd :
  (forall n, agree P (fi n) (fd n)) -> agree P (with_length read old fi) (fun s => let* (n, s) := read s in fd n s).
Proof.
  intros H s. unfold with_length. destruct (read s) as [[n r]|e|w]; cbn [bind]; [apply H|reflexivity|eauto].
Qed.
Lemma agree_raw (P : val -> val -> Prop) old n k : (forall b, P (k b) (k b)) -> agree P (read_raw old n k) (fun s => let* (b, s) := sread s n in Ok (k b, s)).
Proof. intros H s. unfold read_raw. destruct (sread s n) as [[b r]|e|w]; cbn [bind]; eauto. Qed.
Lemma agree_as_list (P : val -> val -> Prop) (L : list val -> list val -> Prop) fi fd : agree_list L fi fd -> (forall x y, L x y -> P (VList x) (VList y)) ->
  agree P (fun s => as_list (fi s)) (fun s => let* (l, s) := fd s in Ok (VList l, s)).
Proof.
  intros A H s. specialize (A s). unfold as_list. destruct (fi s) as [v [r|e|w]]; cbn [fst snd].
  - destruct A as (nw & E & K). rewrite E. cbn [bind]. eauto.
  - now rewrite A.
  - destruct A as [(w' & ->)|(e & ->)]; cbn [bind]; eauto.
Qed.
Lemma agree_ext (P : val -> val -> Prop) fi fi' fd fd' : (forall s, fi s = fi' s) -> (forall s, fd s = fd' s) -> agree P fi fd -> agree P fi' fd'.
Proof. intros E F A s. rewrite <- E, <- F. apply A. Qed.
Lemma agree_pair f g fd gd : agree Same f fd -> agree Same g gd ->
  agree Same (pair_into f g) (fun s => let* (x, s) := fd s in let* (y, s) := gd s in Ok (VList [x; y], s)).
Proof.
  intros A B s. specialize (A s). unfold pair_into. destruct (f s) as [x [r|e|w]].
  - destruct A as (nx & E & <-). rewrite E. cbn [bind]. specialize (B r). destruct (g r) as [y [q|e|w]].
    + destruct B as (ny & E2 & <-). rewrite E2. cbn [bind]. unfold Same. eauto.
    + now rewrite B.
    + destruct B as [(w' & ->)|(e & ->)]; cbn [bind]; eauto.
  - now rewrite A.
  - destruct A as [(w' & ->)|(e & ->)]; cbn [bind]; eauto.
Qed.
Lemma agree_wrap (P : val -> val -> Prop) (k : val -> val) f g : agree Same f g -> (forall x, P (k x) (k x)) ->
  agree P (fun s => let (x, r) := f s in (k x, r)) (fun s => let* (x, s) := g s in Ok (k x, s)).
Proof.
  intros A H s. specialize (A s). destruct (f s) as [x [r|e|w]].
  - destruct A as (nx & E & <-). rewrite E. cbn [bind]. eauto.
  - now rewrite A.
  - destruct A as [(w' & ->)|(e & ->)]; cbn [bind]; eauto.
Qed.
Lemma all3_same l n r : all3 (fun _ => Same) l n r -> n = r.
Proof. induction 1; congruence. Qed.
Lemma all_members_same ts l n r : all_members (fun _ _ => Same) ts l n r -> n = r.
Proof. induction 1; congruence. Qed.
Lemma all3_becomes env t l n r : all3 (becomes env t) l n r -> becomes_all env (repeat t (List.length l)) l n r.
Proof. induction 1; cbn [List.length repeat]; constructor; assumption. Qed.
Lemma all_members_becomes env ts l n r : all_members (becomes env) ts l n r -> becomes_all env ts l n r.
Proof. induction 1; constructor; assumption. Qed.
Lemma all3_app (P : val -> val -> val -> Prop) a b : forall n r, all3 P (a ++ b) n r -> exists n1 n2 r1 r2, n = n1 ++ n2 /\ r = r1 ++ r2 /\ all3 P a n1 r1 /\ all3 P b n2 r2.
Proof.
  induction a as [|x a IH]; intros n r H; [exists [], n, [], r; repeat split; [constructor|exact H]|]. cbn [app] in H. inversion H as [|? y z ? b0 c Hx H']; subst.
  destruct (IH _ _ H') as (n1 & n2 & r1 & r2 & -> & -> & A & B). exists (y :: n1), n2, (z :: r1), r2. repeat split; [now constructor|exact B].
Qed.
Lemma agree_vec_raw (P : val -> val -> Prop) old t w n v' : (forall b, P (VList (cut t w (Z.to_nat n) b)) (VList (cut t w (Z.to_nat n) b))) ->
  agree P (fun s => let total := (n * Z.of_nat w) mod 2 ^ 64 in
            match check_available s total with
            | Ok _ => if n <=? (2 ^ 63 - 1) / Z.of_nat w
                      then read_raw v' total (fun b => VList (cut t w (Z.to_nat n) b)) s
                      else (old, Err E_length_error)
            | Err e => (old, Err e)
            | Undef w => (old, Undef w)
            end)
    (fun s => let total := (n * Z.of_nat w) mod 2 ^ 64 in
            let* _ := check_available s total in
            let* _ := check (n <=? (2 ^ 63 - 1) / Z.of_nat w) E_length_error in
            let* (b, s) := sread s total in
            Ok (VList (cut t w (Z.to_nat n) b), s)).
Proof.
  intros H s. cbn zeta. destruct (check_available s ((n * Z.of_nat w) mod 2 ^ 64)); cbn [bind]; [|reflexivity|eauto]. unfold check.
  destruct (n <=? (2 ^ 63 - 1) / Z.of_nat w); cbn [bind]; [|reflexivity]. apply agree_raw. exact H.
Qed.
Lemma agree_bool_byte (P : val -> val -> Prop) old fi fd : P (VOpt None) (VOpt None) -> agree P fi fd ->
  agree P (fun s => match s with
      | [] => (old, Err E_overrun)
      | b :: s => if b =? 0 then (VOpt None, Ok s) else if b =? 1 then fi s
                  else (old, Undef "bool object with a representation other than 0 or 1") end)
    (fun s => let* (b, s) := read_u8 s in if b =? 0 then Ok (VOpt None, s) else if b =? 1 then fd s
        else Undef "bool object with a representation other than 0 or 1").
Proof.
  intros H A s. destruct s as [|b s]; cbn [read_u8 bind]; [reflexivity|]. destruct (b =? 0); [eauto|]. destruct (b =? 1); [apply A|eauto].
Qed.

Lemma agree_fill_app (P : val -> val -> val -> Prop) f g l1 l2 : Forall (fun x => agree (P x) (f x) g) l1 -> Forall (fun x => agree Same (f x) g) l2 ->
  agree_list (fun n r => exists n1 n2 r1, n = n1 ++ n2 /\ r = r1 ++ n2 /\ all3 P l1 n1 r1 /\ List.length n2 = List.length l2) (fill f (l1 ++ l2)) (read_list g (List.length (l1 ++ l2))).
Proof.
  intros H1 H2. induction H1 as [|x l Hx _ IH]; cbn [app].
  - assert (A : agree_list (all3 (fun _ => Same) l2) (fill f l2) (read_list g (List.length l2))) by (apply agree_fill; exact H2).
    intros s. specialize (A s). destruct (fill f l2 s) as [v [r|e|w]]; [|exact A..]. destruct A as (nw & E & K). exists nw. split; [exact E|].
    assert (L : List.length nw = List.length l2) by (clear - K; induction K; cbn [List.length]; congruence). apply all3_same in K. subst v.
    exists [], nw, []. repeat split; [constructor|exact L].
  - intros s; cbn [fill read_list List.length]. specialize (Hx s). destruct (f x s) as [v [r|e|w]].
    + destruct Hx as (nv & E & Hp). rewrite E. cbn [bind]. specialize (IH r). destruct (fill f (l ++ l2) r) as [l' [r'|e|w]]; cbn [bind].
      * destruct IH as (nl & E2 & n1 & n2 & r1 & -> & -> & K & L). rewrite E2. cbn [bind]. eexists. split; [reflexivity|]. exists (nv :: n1), n2, (v :: r1). repeat split; [now constructor|exact L].
      * now rewrite IH.
      * destruct IH as [(w' & ->)|(e & ->)]; cbn [bind]; eauto.
    + now rewrite Hx.
    + destruct Hx as [(w' & ->)|(e & ->)]; cbn [bind]; eauto.
Qed.
Lemma cut_length t w k : forall b, List.length (cut t w k b) = k.
Proof. induction k; intros b; cbn [cut List.length]; auto. Qed.
Lemma becomes_scalars env t w : bitwise_size t = Some w -> forall a b, List.length a = List.length b -> becomes_all env (repeat t (List.length a)) a b b.
Proof.
  intros W. induction a as [|x a IH]; intros [|y b] L; try discriminate L; cbn [List.length repeat]; constructor; [|apply IH; cbn in L; lia].
  constructor. destruct t; try discriminate W; exact I.
Qed.
Lemma bvec_raw env t w lo c : bitwise_size t = Some w -> becomes env (TVec t) (VList lo) (VList c) (VList c).
Proof.
  intros W. set (m := List.length c).
  rewrite <- (firstn_skipn (List.length (firstn m lo)) c). apply (BVec env t lo (firstn m lo) (skipn m lo)).
  - symmetry. apply firstn_skipn.
  - destruct (Nat.le_gt_cases (List.length lo) m); [left; now apply skipn_all2|right]. apply skipn_all2. rewrite firstn_length. lia.
  - eapply becomes_scalars; [exact W|]. rewrite !firstn_length. fold m. lia.
Qed.
Lemma keys_sorted key l : keys_ok key l = true -> strictly_sorted key l = true /\ forallb (fun x => negb (has_nan (key x))) l = true.
Proof. unfold keys_ok. apply andb_true_iff. Qed.
Lemma emplace_all_keys key l : forall acc r, keys_ok key acc = true -> emplace_all key l acc = Ok r -> keys_ok key r = true.
Proof.
  intros acc r K H. apply keys_sorted in K as [S N].
  assert (T : forall m : list val, forallb (fun _ => true) m = true) by (induction m; auto).
  pose proof (emplace_all_ok key (fun _ => true) l acc (T l) (T acc) S N) as X. rewrite H in X. tauto.
Qed.
Lemma emplace_all_both key l acc1 acc2 r1 : emplace_all key l acc1 = Ok r1 -> exists r2, emplace_all key l acc2 = Ok r2.
Proof. revert acc1 acc2. induction l as [|x l IH]; intros acc1 acc2; cbn [emplace_all]; [eauto|]. destruct (has_nan (key x)); [discriminate|]. apply IH. Qed.
Lemma emplace_all_err key l : forall acc e, emplace_all key l acc <> Err e.
Proof. induction l as [|x l IH]; intros acc e; cbn [emplace_all]; [discriminate|]. destruct (has_nan (key x)); [discriminate|]. apply IH. Qed.
Lemma agree_union (P : val -> val -> Prop) key f g n lo : agree Same f g -> keys_ok key lo = true ->
  (forall new r, keys_ok key r = true -> (forall x, In x r <-> In x lo \/ In x new /\ forall y, In y lo -> vcmp (key x) (key y) <> Eq) -> P (VList new) (VList r)) ->
  agree P (fun s => as_list (emplace key f n lo s)) (fun s => let* (l, s) := read_list g n s in let* l := emplace_all key l [] in Ok (VList l, s)).
Proof.
  intros A K H s. pose proof (agree_emplace key f g A n lo s) as E. unfold as_list. destruct (emplace key f n lo s) as [v [r|e|w]]; cbn [fst snd].
  - destruct E as (nw & E & <-). destruct (read_list g n s) as [[a q]|e|w]; cbn [bind] in *; [|discriminate E..].
    destruct (emplace_all key a lo) as [r1|e|w] eqn:E1; cbn [bind] in E; [|discriminate E..]. injection E as -> ->.
    destruct (emplace_all_both key a lo [] _ E1) as (r2 & E2). rewrite E2. cbn [bind]. exists (VList r2). split; [reflexivity|]. apply H.
    + eapply emplace_all_keys; eauto.
    + apply (emplace_all_union key a lo lo [] _ r2); [now apply keys_sorted|reflexivity| |exact E1|exact E2]. intros x. cbn [In]. tauto.
  - destruct (read_list g n s) as [[a q]|e'|w]; cbn [bind] in *; [|congruence|discriminate E]. destruct (emplace_all key a lo) as [r1|e'|w] eqn:E1; cbn [bind] in E; try discriminate E. exfalso. eapply emplace_all_err; eauto.
  - destruct (read_list g n s) as [[a q]|e'|w']; cbn [bind] in *; [|eauto|eauto]. destruct (emplace_all key a lo) as [r1|e'|w'] eqn:E1; cbn [bind] in E.
    + destruct E as [(x & X)|(x & X)]; discriminate X.
    + exfalso. eapply emplace_all_err; eauto.
    + destruct (emplace_all key a []) as [r2|e'|w''] eqn:E2; cbn [bind]; [|exfalso; eapply emplace_all_err; eauto|eauto]. destruct (emplace_all_both key a [] lo _ E2) as (r3 & E3). congruence.
Qed.

(** ** Into a fresh object, and into any object *)
Section Agree.
  Variable env : nat -> ty.
  Variable d : nat -> val.
  Variable refi : nat -> val -> istream -> into.
  Variable refd : nat -> istream -> res (val * istream).
  Hypothesis Rf : forall n, agree Same (refi n (d n)) (refd n).
  Hypothesis Ro : forall n old, object env (env n) old -> agree (becomes env (env n) old) (refi n old) (refd n).

  Lemma agree_fresh t : ty_ok t = true -> agree Same (from_bin_into_with d refi t (fresh_with d t)) (from_bin_with refd t).
  Proof.
    induction t as [sg n| |n| | | | |t IH|t IH|t IH|k t IHk IHt|n t IH|n t IH|t IH|ts IH|ts IH|t IH|k t IH|n] using ty_ind'; intros T.
    - apply (agree_raw Same). reflexivity.
    - intros s. cbn [fresh_with from_bin_into_with from_bin_with]. destruct s as [|b s]; cbn [read_u8 bind]; [reflexivity|]. unfold Same. destruct (b =? 0); [eauto|]. destruct (b =? 1); eauto.
    - apply (agree_raw Same). reflexivity.
    - intros s. cbn [fresh_with from_bin_into_with from_bin_with]. unfold Same. destruct (varuint32_from_bin s) as [[z r]|e|w]; cbn [bind]; eauto.
    - apply (agree_length Same varint32_from_bin _ _ (fun z s => Ok (VInt z, s))). intros n s. unfold Same. eauto.
    - apply (agree_length Same varuint32_from_bin _ _ (fun n s => let* (b, s) := sread s n in Ok (VStr b, s))). intros n. apply agree_raw. reflexivity.
    - apply (agree_length Same varuint64_from_bin _ _ (fun n s => let* _ := check_available s n in let* (b, s) := sread s n in Ok (VStr b, s))). intros n s.
      destruct (check_available s n); cbn [bind]; [|reflexivity|eauto]. apply (agree_raw Same). reflexivity.
    - cbn [ty_ok] in T. cbn [fresh_with from_bin_into_with from_bin_with]. destruct (bitwise_size t) as [w|].
      + apply (agree_length Same varuint64_from_bin). intros n. apply agree_vec_raw. reflexivity.
      + apply (agree_length Same varuint32_from_bin _ _ (fun n s => let* (l, s) := read_list (from_bin_with refd t) (Z.to_nat n) s in Ok (VList l, s))). intros n.
        apply (agree_as_list Same (all3 (fun _ => Same) (resize (fresh_with d t) (Z.to_nat n) []))); [|intros x y H; apply all3_same in H; now rewrite H].
        assert (R : resize (fresh_with d t) (Z.to_nat n) [] = repeat (fresh_with d t) (Z.to_nat n)) by (unfold resize; rewrite firstn_nil; cbn [app List.length]; now rewrite Nat.sub_0_r).
        rewrite R. set (m := Z.to_nat n). replace (read_list (from_bin_with refd t) m) with (read_list (from_bin_with refd t) (List.length (repeat (fresh_with d t) m))) by now rewrite repeat_length.
        apply agree_fill. apply Forall_forall. intros x Hx. apply repeat_spec in Hx as ->. now apply IH.
    - cbn [ty_ok] in T. apply (agree_length Same varuint32_from_bin _ _ (fun n s => let* (l, s) := read_list (from_bin_with refd t) (Z.to_nat n) s in Ok (VList l, s))). intros n.
      eapply agree_as_list; [apply (agree_append _ _ (IH T))|]. intros x y ->. reflexivity.
    - cbn [ty_ok] in T. apply (agree_length Same varuint32_from_bin _ _ (fun n s => let* (l, s) := read_list (from_bin_with refd t) (Z.to_nat n) s in let* l := emplace_all id_key l [] in Ok (VList l, s))). intros n.
      eapply agree_ext; [reflexivity| |eapply agree_as_list; [apply (agree_emplace id_key _ _ (IH T))|intros x y ->; reflexivity]].
      intros s. cbn beta. destruct (read_list _ _ s) as [[a q]|e|w]; cbn [bind]; [|reflexivity..]. destruct (emplace_all id_key a []); reflexivity.
    - cbn [ty_ok] in T. apply andb_true_iff in T as [Tk Tt].
      apply (agree_length Same varuint32_from_bin _ _ (fun n s => let* (l, s) := read_list (fun s => let* (x, s) := from_bin_with refd k s in let* (y, s) := from_bin_with refd t s in Ok (VList [x; y], s)) (Z.to_nat n) s in let* l := emplace_all pair_key l [] in Ok (VList l, s))). intros n.
      eapply agree_ext; [reflexivity| |eapply agree_as_list; [apply (agree_emplace pair_key _ _ (agree_pair _ _ _ _ (IHk Tk) (IHt Tt)))|intros x y ->; reflexivity]].
      intros s. cbn beta. destruct (read_list _ _ s) as [[a q]|e|w]; cbn [bind]; [|reflexivity..]. destruct (emplace_all pair_key a []); reflexivity.
    - cbn [ty_ok] in T. cbn [fresh_with from_bin_into_with from_bin_with].
      apply (agree_as_list Same (all3 (fun _ => Same) (repeat (fresh_with d t) n))); [|intros x y H; apply all3_same in H; now rewrite H].
      replace (read_list (from_bin_with refd t) n) with (read_list (from_bin_with refd t) (List.length (repeat (fresh_with d t) n))) by now rewrite repeat_length.
      apply agree_fill. apply Forall_forall. intros x Hx. apply repeat_spec in Hx as ->. now apply IH.
    - cbn [ty_ok] in T. apply andb_true_iff in T as [_ T].
      cbn [fresh_with from_bin_into_with from_bin_with]. apply (agree_length Same varuint32_from_bin). intros m s. unfold check. destruct (Z.eqb_spec m (Z.of_nat n)) as [->|]; cbn [bind]; [|reflexivity].
      destruct (bitwise_size t) as [w|]; [apply (agree_raw Same); reflexivity|]. revert s.
      apply (agree_as_list Same (all3 (fun _ => Same) (repeat (fresh_with d t) n))); [|intros x y H; apply all3_same in H; now rewrite H].
      replace (read_list (from_bin_with refd t) n) with (read_list (from_bin_with refd t) (List.length (repeat (fresh_with d t) n))) by now rewrite repeat_length.
      apply agree_fill. apply Forall_forall. intros x Hx. apply repeat_spec in Hx as ->. now apply IH.
    - cbn [ty_ok] in T. apply (agree_bool_byte Same); [reflexivity|]. apply (agree_wrap Same (fun x => VOpt (Some x))); [now apply IH|reflexivity].
    - cbn [ty_ok] in T. apply (agree_length Same varuint32_from_bin _ _ (fun i s => match nthz (map (from_bin_with refd) ts) i with Some f => let* (x, s) := f s in Ok (VVar i x, s) | None => Err E_bad_variant_index end)).
      intros i s. rewrite !nthz_map'. destruct (nthz ts i) as [t|] eqn:N; cbn [option_map]; [|reflexivity]. apply nthz_In' in N. rewrite forallb_forall in T. rewrite Forall_forall in IH.
      apply (agree_wrap Same (VVar i)); [now apply IH; auto|reflexivity].
    - cbn [ty_ok] in T. cbn [fresh_with from_bin_into_with from_bin_with].
      apply (agree_as_list Same (all_members (fun _ _ => Same) ts (map (fresh_with d) ts))); [|intros x y H; apply all_members_same in H; now rewrite H].
      apply agree_members. clear - IH T. induction ts as [|t ts IHts]; cbn [map]; constructor.
      + inversion IH as [|? ? Ht _]; subst. apply Ht. cbn [forallb] in T. now apply andb_true_iff in T.
      + inversion IH; subst. cbn [forallb] in T. apply andb_true_iff in T as [_ T]. now apply IHts.
    - cbn [ty_ok] in T. apply andb_true_iff in T as [M T]. intros s. specialize (IH T s). cbn [fresh_with from_bin_into_with from_bin_with]. destruct s as [|c s]; [|exact IH].
      destruct t; try discriminate M; cbn [default_val bind fresh_with]; unfold Same; eauto.
    - cbn [ty_ok] in T. now apply IH.
    - apply Rf.
  Qed.

  Lemma agree_old t : ty_ok t = true -> forall old, object env t old -> agree (becomes env t old) (from_bin_into_with d refi t old) (from_bin_with refd t).
  Proof.
    induction t as [sg n| |n| | | | |t IH|t IH|t IH|k t IHk IHt|n t IH|n t IH|t IH|ts IH|ts IH|t IH|k t IH|n] using ty_ind'; intros T old O; inversion O; subst.
    - apply (agree_raw _). intros b. now constructor.
    - intros s. cbn [from_bin_into_with from_bin_with]. destruct s as [|c s]; cbn [read_u8 bind]; [reflexivity|].
      destruct (c =? 0); [eexists; split; [reflexivity|now constructor]|]. destruct (c =? 1); [eexists; split; [reflexivity|now constructor]|eauto].
    - apply (agree_raw _). intros b. now constructor.
    - intros s. cbn [from_bin_into_with from_bin_with]. destruct (varuint32_from_bin s) as [[v r]|e|w]; cbn [bind]; [eexists; split; [reflexivity|now constructor]|reflexivity|eauto].
    - apply (agree_length _ varint32_from_bin _ _ (fun z s => Ok (VInt z, s))). intros n s. eexists; split; [reflexivity|now constructor].
    - apply (agree_length _ varuint32_from_bin _ _ (fun n s => let* (b, s) := sread s n in Ok (VStr b, s))). intros n. apply agree_raw. now constructor.
    - apply (agree_length _ varuint64_from_bin _ _ (fun n s => let* _ := check_available s n in let* (b, s) := sread s n in Ok (VStr b, s))). intros n s.
      destruct (check_available s n); cbn [bind]; [|reflexivity|eauto]. apply (agree_raw _). now constructor.
    - cbn [ty_ok] in T. cbn [from_bin_into_with from_bin_with]. rename l into lo. destruct (bitwise_size t) as [w|] eqn:W.
      + apply (agree_length _ varuint64_from_bin). intros n. apply agree_vec_raw. intros b. apply (bvec_raw env t w lo). exact W.
      + apply (agree_length _ varuint32_from_bin _ _ (fun n s => let* (l, s) := read_list (from_bin_with refd t) (Z.to_nat n) s in Ok (VList l, s))). intros n.
        set (m := Z.to_nat n). set (k := (m - List.length lo)%nat). set (l1 := resize (fresh_with d t) m lo).
        assert (L1 : List.length l1 = m) by (unfold l1, resize; rewrite app_length, firstn_length, repeat_length; lia).
        rewrite <- L1. eapply agree_as_list; [apply (agree_fill_app (becomes env t))|].
        * apply Forall_forall. intros x Hx. apply IH; [exact T|]. rewrite Forall_forall in H0. apply H0. rewrite <- (firstn_skipn m lo). apply in_app_iff. now left.
        * apply Forall_forall. intros x Hx. apply repeat_spec in Hx as ->. now apply agree_fresh.
        * intros x y (n1 & n2 & r1 & -> & -> & K & L2). rewrite repeat_length in L2. apply (BVec env t lo (firstn m lo) (skipn m lo)).
          -- symmetry. apply firstn_skipn.
          -- destruct (Nat.le_gt_cases (List.length lo) m); [left; now apply skipn_all2|right]. destruct n2; [reflexivity|cbn [List.length] in L2; lia].
          -- now apply all3_becomes.
    - cbn [ty_ok] in T. apply (agree_length _ varuint32_from_bin _ _ (fun n s => let* (l, s) := read_list (from_bin_with refd t) (Z.to_nat n) s in Ok (VList l, s))). intros n.
      eapply agree_as_list; [apply (agree_append _ _ (agree_fresh t T))|]. intros x y ->. constructor.
    - cbn [ty_ok] in T. apply (agree_length _ varuint32_from_bin _ _ (fun n s => let* (l, s) := read_list (from_bin_with refd t) (Z.to_nat n) s in let* l := emplace_all id_key l [] in Ok (VList l, s))). intros n.
      apply agree_union; [now apply agree_fresh|assumption|]. intros nw r. apply BSet.
    - cbn [ty_ok] in T. apply andb_true_iff in T as [Tk Tt].
      apply (agree_length _ varuint32_from_bin _ _ (fun n s => let* (l, s) := read_list (fun s => let* (x, s) := from_bin_with refd k s in let* (y, s) := from_bin_with refd t s in Ok (VList [x; y], s)) (Z.to_nat n) s in let* l := emplace_all pair_key l [] in Ok (VList l, s))). intros n.
      apply agree_union; [apply agree_pair; now apply agree_fresh|assumption|]. intros nw r. apply BMap.
    - cbn [ty_ok] in T. cbn [from_bin_into_with from_bin_with]. eapply agree_as_list; [apply (agree_fill (becomes env t))|].
      + eapply Forall_impl; [|eassumption]. intros x Ox. now apply IH.
      + intros x y K. apply all3_becomes in K. now constructor.
    - cbn [ty_ok] in T. apply andb_true_iff in T as [_ T].
      cbn [from_bin_into_with from_bin_with]. apply (agree_length _ varuint32_from_bin). intros m s. unfold check. destruct (Z.eqb_spec m (Z.of_nat (List.length l))) as [->|]; cbn [bind]; [|reflexivity].
      destruct (bitwise_size t) as [w|] eqn:W.
      + apply (agree_raw _). intros b. constructor; [reflexivity|]. eapply becomes_scalars; [exact W|]. symmetry. apply cut_length.
      + revert s. eapply agree_as_list; [apply (agree_fill (becomes env t))|].
        * eapply Forall_impl; [|eassumption]. intros x Ox. now apply IH.
        * intros x y K. apply all3_becomes in K. now constructor.
    - cbn [ty_ok] in T. apply (agree_bool_byte _); [now constructor|]. apply (agree_wrap _ (fun x => VOpt (Some x))); [now apply agree_fresh|now constructor].
    - cbn [ty_ok] in T. apply (agree_bool_byte _); [now constructor|]. apply (agree_wrap _ (fun x => VOpt (Some x))); [now apply agree_fresh|now constructor].
    - cbn [ty_ok] in T. apply (agree_length _ varuint32_from_bin _ _ (fun i s => match nthz (map (from_bin_with refd) ts) i with Some f => let* (x, s) := f s in Ok (VVar i x, s) | None => Err E_bad_variant_index end)).
      intros j s. rewrite !nthz_map'. destruct (nthz ts j) as [t'|] eqn:N; cbn [option_map]; [|reflexivity]. apply nthz_In' in N. rewrite forallb_forall in T.
      apply (agree_wrap _ (VVar j)); [apply agree_fresh; auto|now constructor].
    - cbn [ty_ok] in T. cbn [from_bin_into_with from_bin_with]. eapply agree_as_list; [apply (agree_members (becomes env))|].
      + clear O. match goal with H : Forall2 _ ts l |- _ => induction H end; constructor.
        * inversion IH as [|? ? Ht _]; subst. apply Ht; [|assumption]. cbn [forallb] in T. now apply andb_true_iff in T.
        * inversion IH; subst. cbn [forallb] in T. apply andb_true_iff in T as [_ T]. auto.
      + intros x y K. apply all_members_becomes in K. now constructor.
    - cbn [ty_ok] in T. apply andb_true_iff in T as [M T]. intros s. cbn [from_bin_into_with from_bin_with]. destruct s as [|c s].
      + destruct t; try discriminate M; cbn [default_val bind]; eexists; (split; [reflexivity|]); apply BKept; auto.
      + pose proof (IH T old ltac:(assumption) (c :: s)) as X. destruct (from_bin_into_with d refi t old (c :: s)) as [v [r|e|w]]; [|exact X..].
        destruct X as (nw & E & K). exists nw. split; [exact E|]. now constructor.
    - cbn [ty_ok] in T. eapply agree_mono; [|apply IH; [exact T|eassumption]]. intros x y. apply BWrap.
    - eapply agree_mono; [|apply Ro; eassumption]. intros x y. apply BRef.
  Qed.
End Agree.
Lemma from_bin_into_unfold env d fuel :
  from_bin_into env d fuel = from_bin_into_with d (fun n v s => match fuel with O => (v, Undef "stack") | S f => from_bin_into env d f (env n) v s end).
Proof. destruct fuel; reflexivity. Qed.
Lemma agree_refs env d : (forall n, ty_ok (env n) = true) -> defaults env d -> forall fuel t, ty_ok t = true ->
  agree Same (from_bin_into env d fuel t (fresh_with d t)) (from_bin env fuel t) /\
  forall old, object env t old -> agree (becomes env t old) (from_bin_into env d fuel t old) (from_bin env fuel t).
Proof.
  intros Te D. induction fuel as [|f IH]; intros t T.
  - rewrite from_bin_unfold, from_bin_into_unfold. assert (S0 : forall (P : val -> val -> Prop) v, agree P (fun s => (v, Undef "stack")) (fun _ => Undef "stack")) by (intros P v s; eauto).
    split; [apply (agree_fresh d _ _)|intros old O; eapply (agree_old env d)]; auto; intros; apply S0.
  - rewrite from_bin_unfold, from_bin_into_unfold.
    assert (A : forall n, agree Same (from_bin_into env d f (env n) (d n)) (from_bin env f (env n))) by (intros n; rewrite (proj1 (D n)); now apply IH).
    split; [apply (agree_fresh d _ _)|intros old O; eapply (agree_old env d)]; auto. intros n o On. now apply IH.
Qed.

(** ** Old contents which cannot show *)
Scheme becomes_mind := Minimality for becomes Sort Prop with becomes_all_mind := Minimality for becomes_all Sort Prop.
Combined Scheme becomes_both from becomes_mind, becomes_all_mind.
Lemma overwritten_same env ok : (forall n, ok n = true -> overwritten ok (env n) = true) ->
  (forall t old nw r, becomes env t old nw r -> overwritten ok t = true -> r = nw) /\
  (forall ts old nw r, becomes_all env ts old nw r -> forallb (overwritten ok) ts = true -> r = nw).
Proof.
  intros Hok. apply (becomes_both env (fun t old nw r => overwritten ok t = true -> r = nw) (fun ts old nw r => forallb (overwritten ok) ts = true -> r = nw)).
  - reflexivity.
  - intros t old over gone n1 n2 r _ _ _ IH O. cbn [overwritten] in O. rewrite IH; [reflexivity|]. apply forallb_forall. intros x Hx. apply repeat_spec in Hx. now subst x.
  - intros; discriminate.
  - intros; discriminate.
  - intros; discriminate.
  - intros n t old nw r _ _ IH O. cbn [overwritten] in O. rewrite IH; [reflexivity|]. apply forallb_forall. intros x Hx. apply repeat_spec in Hx. now subst x.
  - intros n t old nw r _ _ IH O. cbn [overwritten] in O. rewrite IH; [reflexivity|]. apply forallb_forall. intros x Hx. apply repeat_spec in Hx. now subst x.
  - intros ts old nw r _ IH O. cbn [overwritten] in O. now rewrite IH.
  - intros; discriminate.
  - intros; discriminate.
  - intros k t old nw r _ IH O. now apply IH.
  - intros n old nw r _ IH O. apply IH, Hok, O.
  - reflexivity.
  - intros t ts x old y nw z r _ IH1 _ IH2 O. cbn [forallb] in O. apply andb_true_iff in O as [O1 O2]. now rewrite IH1, IH2.
Qed.

(** ** The object is an object of its type after every call *)
Lemma lor_bound a b : 0 <= a < 2 ^ 32 -> 0 <= b < 2 ^ 32 -> 0 <= Z.lor a b < 2 ^ 32.
Proof.
  intros Ha Hb. split; [apply Z.lor_nonneg; lia|]. destruct (Z.eq_dec (Z.lor a b) 0) as [->|N]; [lia|].
  assert (0 <= Z.lor a b) by (apply Z.lor_nonneg; lia). apply Z.log2_lt_pow2; [lia|]. rewrite Z.log2_lor by lia.
  assert (L : forall c, 0 <= c < 2 ^ 32 -> Z.log2 c < 32).
  { intros c Hc. destruct (Z.eq_dec c 0) as [->|]; [reflexivity|]. apply Z.log2_lt_pow2; lia. }
  apply Z.max_lub_lt; auto.
Qed.
Lemma dest_loop_range fuel : forall dest shift s, 0 <= dest < 2 ^ 32 -> 0 <= dest_loop fuel dest shift s < 2 ^ 32.
Proof.
  induction fuel as [|f IH]; intros dest shift s H; cbn [dest_loop]; [exact H|]. destruct s as [|b s]; [exact H|]. destruct (shift <? 35); [|exact H].
  assert (X : 0 <= Z.lor dest (Z.shiftl (Z.land b 127) shift mod 2 ^ 32) < 2 ^ 32) by (apply lor_bound; [exact H|apply Z.mod_pos_bound; reflexivity]).
  destruct (negb _); [now apply IH|exact X].
Qed.
Lemma vu32_ok s n r : bytes_ok s -> varuint32_from_bin s = Ok (n, r) -> 0 <= n < 2 ^ 32 /\ bytes_ok r.
Proof.
  intros Hs. rewrite varuint32_from_bin_eq by exact Hs. destruct (leb_read 5 s) as [[l q]|e|w] eqn:E; cbn [bind]; [|discriminate..].
  intros X. assert (Y : n = leb_value l mod 2 ^ 32) by congruence. assert (q = r) by congruence. subst q. apply leb_read_Ok in E as (-> & _); [|exact Hs]. split; [subst n; apply Z.mod_pos_bound; reflexivity|].
  now apply bytes_ok_app in Hs.
Qed.
Lemma vu64_ok s n r : bytes_ok s -> varuint64_from_bin s = Ok (n, r) -> 0 <= n < 2 ^ 64 /\ bytes_ok r.
Proof.
  intros Hs. rewrite varuint64_from_bin_eq by exact Hs. destruct (leb_read 10 s) as [[l q]|e|w] eqn:E; cbn [bind]; [|discriminate..].
  intros X. assert (Y : n = leb_value l mod 2 ^ 64) by congruence. assert (q = r) by congruence. subst q. apply leb_read_Ok in E as (-> & _); [|exact Hs]. split; [subst n; apply Z.mod_pos_bound; reflexivity|].
  now apply bytes_ok_app in Hs.
Qed.
Lemma vi32_ok s n r : bytes_ok s -> varint32_from_bin s = Ok (n, r) -> - 2 ^ 31 <= n < 2 ^ 31 /\ bytes_ok r.
Proof.
  intros Hs. rewrite varint32_from_bin_eq. destruct (varuint32_from_bin s) as [[z q]|e|w] eqn:E; cbn [bind]; [|discriminate..]. destruct (vu32_ok _ _ _ Hs E) as [Hz Hq].
  rewrite unzigzag_val by exact Hz. intros X. injection X as X ->. split; [|exact Hq].
  assert (0 <= z / 2 < 2 ^ 31) by lia. assert (0 <= (z + 1) / 2 <= 2 ^ 31) by lia. destruct (z mod 2 =? 0); lia.
Qed.
Definition good (P : val -> Prop) (p : into) : Prop := P (fst p) /\ match snd p with Ok r => bytes_ok r | _ => True end.
Definition good_list (P : list val -> Prop) (p : list val * res istream) : Prop := P (fst p) /\ match snd p with Ok r => bytes_ok r | _ => True end.
Lemma good_length (P : val -> Prop) read old (Q : Z -> Prop) k s : bytes_ok s -> P old -> (forall n r, read s = Ok (n, r) -> Q n /\ bytes_ok r) ->
  (forall n r, Q n -> bytes_ok r -> good P (k n r)) -> good P (with_length read old k s).
Proof. intros Hs Ho R K. unfold with_length. destruct (read s) as [[n r]|e|w]; [|now split..]. destruct (R n r eq_refl) as [Qn Hr]. now apply K. Qed.
Lemma good_raw (P : val -> Prop) old n k s : 0 <= n -> bytes_ok s -> P old -> (forall b, bytes_ok b -> Z.of_nat (List.length b) = n -> P (k b)) -> good P (read_raw old n k s).
Proof.
  intros Hn Hs Ho K. unfold read_raw. pose proof (sread_gok n Hn s Hs) as X. destruct (sread s n) as [[b r]|e|w]; [|now split..]. destruct X as (E & Hb & L). split; cbn [fst snd]; [auto|].
  rewrite E in Hs. now apply bytes_ok_app in Hs.
Qed.
Lemma good_as_list (P : val -> Prop) (L : list val -> Prop) p : good_list L p -> (forall l, L l -> P (VList l)) -> good P (as_list p).
Proof. intros [H1 H2] H. split; cbn; auto. Qed.
Lemma good_fill (P : val -> Prop) f l : Forall (fun x => forall s, bytes_ok s -> good P (f x s)) l -> Forall P l -> forall s, bytes_ok s ->
  good_list (fun r => Forall P r /\ List.length r = List.length l) (fill f l s).
Proof.
  induction 1 as [|x l Hx _ IH]; intros F s Hs; cbn [fill]; [split; [split; [constructor|reflexivity]|exact Hs]|]. inversion F; subst.
  destruct (Hx s Hs) as [P1 P2]. destruct (f x s) as [v [r|e|w]]; cbn [fst snd] in *.
  - destruct (IH ltac:(assumption) r P2) as [[F1 F2] F3]. destruct (fill f l r) as [l' q]; cbn [fst snd] in *. split; [|exact F3]. cbn [fst List.length]. split; [now constructor|congruence].
  - split; [|exact I]. split; [now constructor|reflexivity].
  - split; [|exact I]. split; [now constructor|reflexivity].
Qed.
Lemma good_members (P : ty -> val -> Prop) (f : ty -> val -> istream -> into) ts l : Forall2 (fun t x => forall s, bytes_ok s -> good (P t) (f t x s)) ts l -> Forall2 P ts l ->
  forall s, bytes_ok s -> good_list (Forall2 P ts) (fill_members (map f ts) l s).
Proof.
  induction 1 as [|t x ts l Hx _ IH]; intros F s Hs; cbn [map fill_members]; [split; [constructor|exact Hs]|]. inversion F; subst.
  destruct (Hx s Hs) as [P1 P2]. destruct (f t x s) as [v [r|e|w]]; cbn [fst snd] in *.
  - destruct (IH ltac:(assumption) r P2) as [F1 F3]. destruct (fill_members (map f ts) l r) as [l' q]; cbn [fst snd] in *. split; [now constructor|exact F3].
  - split; [now constructor|exact I].
  - split; [now constructor|exact I].
Qed.
Lemma good_append (P : val -> Prop) f : (forall s, bytes_ok s -> good P (f s)) -> forall n l s, Forall P l -> bytes_ok s -> good_list (Forall P) (append f n l s).
Proof.
  intros H. induction n as [|n IH]; intros l s F Hs; cbn [append]; [now split|]. destruct (H s Hs) as [P1 P2]. destruct (f s) as [v [r|e|w]]; cbn [fst snd] in *.
  - apply IH; [|exact P2]. apply Forall_app. auto.
  - split; [|exact I]. apply Forall_app. auto.
  - split; [|exact I]. apply Forall_app. auto.
Qed.
Lemma good_emplace (P : val -> Prop) key f : (forall s, bytes_ok s -> match f s with (v, Ok r) => P v /\ bytes_ok r | _ => True end) -> forall n l s, Forall P l -> keys_ok key l = true -> bytes_ok s ->
  good_list (fun r => Forall P r /\ keys_ok key r = true) (emplace key f n l s).
Proof.
  intros H. induction n as [|n IH]; intros l s F K Hs; cbn [emplace]; [repeat split; assumption|]. specialize (H s Hs). destruct (f s) as [v [r|e|w]]; [|repeat split; assumption..].
  destruct (has_nan (key v)) eqn:N; [repeat split; assumption|]. apply IH; [| |tauto].
  - apply Forall_forall. intros y Hy. apply set_emplace_In in Hy as [->|Hy]; [tauto|]. rewrite Forall_forall in F. auto.
  - apply keys_sorted in K as [S K]. unfold keys_ok. rewrite set_emplace_sorted by exact S. cbn [andb]. apply forallb_forall. intros y Hy. apply set_emplace_In in Hy as [->|Hy]; [now rewrite N|].
    rewrite forallb_forall in K. auto.
Qed.
Lemma instantiable_ok t : instantiable t = true -> ty_ok t = true.
Proof. destruct t; cbn [instantiable]; rewrite ?andb_true_iff; tauto. Qed.
Lemma object_of_raw env t w b : bitwise_size t = Some w -> ty_ok t = true -> bytes_ok b -> List.length b = w -> object env t (of_raw t b).
Proof.
  intros W T Hb L. pose proof (of_raw_ok (fun _ _ => true) t w b W T Hb L) as X. destruct t as [sg n| |n| | | | | | | | | | | | | | | |]; try discriminate W.
  - unfold of_raw in *. destruct sg; constructor; exact X.
  - cbn [of_raw wf_with ty_ok] in *. rewrite !andb_true_iff in X. destruct X as [_ X]. constructor; [apply orb_true_iff in T; rewrite !Nat.eqb_eq in T; exact T|]. unfold fits_u in X. lia.
Qed.
Lemma object_cut env t w : bitwise_size t = Some w -> ty_ok t = true -> forall k b, bytes_ok b -> (w * k <= List.length b)%nat -> Forall (object env t) (cut t w k b).
Proof.
  intros W T. induction k as [|k IH]; intros b Hb L; cbn [cut]; constructor.
  - eapply object_of_raw; eauto; [rewrite <- (firstn_skipn w b) in Hb; now apply bytes_ok_app in Hb|]. rewrite firstn_length. lia.
  - apply IH; [rewrite <- (firstn_skipn w b) in Hb; now apply bytes_ok_app in Hb|]. rewrite skipn_length. lia.
Qed.
Lemma fresh_object env d : defaults env d -> forall t, instantiable t = true -> object env t (fresh_with d t).
Proof.
  intros D. induction t as [sg n| |n| | | | |t IH|t IH|t IH|k t IHk IHt|n t IH|n t IH|t IH|ts IH|ts IH|t IH|k t IH|n] using ty_ind'; intros T; pose proof (instantiable_ok _ T) as T0; cbn [fresh_with].
  - cbn [ty_ok] in T0. constructor. unfold int_ok. assert (X : 0 < 2 ^ (8 * Z.of_nat n - 1)) by (apply Z.pow_pos_nonneg; lia). assert (Y : 0 < 2 ^ (8 * Z.of_nat n)) by (apply Z.pow_pos_nonneg; lia).
    rewrite T0. cbn [andb]. destruct sg; unfold fits_s, fits_u; lia.
  - constructor.
  - cbn [ty_ok] in T0. apply orb_true_iff in T0. rewrite !Nat.eqb_eq in T0. constructor; [exact T0|]. split; [lia|]. apply Z.pow_pos_nonneg; lia.
  - constructor. lia.
  - constructor. lia.
  - constructor. constructor.
  - constructor. constructor.
  - constructor. constructor.
  - constructor. constructor.
  - constructor; [constructor|reflexivity].
  - constructor; [constructor|reflexivity].
  - cbn [instantiable] in T. apply andb_true_iff in T as [_ T]. constructor; [apply repeat_length|]. apply Forall_forall. intros x Hx. apply repeat_spec in Hx as ->. auto.
  - cbn [instantiable] in T. apply andb_true_iff in T as [_ T]. constructor; [apply repeat_length|]. apply Forall_forall. intros x Hx. apply repeat_spec in Hx as ->. auto.
  - constructor.
  - cbn [instantiable] in T. apply andb_true_iff in T as [_ T]. destruct ts as [|t ts]; [discriminate T|]. cbn [map hd]. apply (OVariant env _ 0%nat t); [reflexivity|]. inversion IH; subst. cbn [forallb] in T. apply andb_true_iff in T as [T _]. auto.
  - cbn [instantiable] in T. apply andb_true_iff in T as [_ T]. constructor. clear T0. induction ts as [|t ts IHts]; cbn [map]; constructor; inversion IH; subst; cbn [forallb] in T; apply andb_true_iff in T as [T1 T2]; auto.
  - cbn [instantiable] in T. apply andb_true_iff in T as [_ T]. constructor. auto.
  - cbn [instantiable] in T. apply andb_true_iff in T as [_ T]. constructor. auto.
  - constructor. apply D.
Qed.
Section Good.
  Variable env : nat -> ty.
  Variable d : nat -> val.
  Variable refi : nat -> val -> istream -> into.
  Hypothesis D : defaults env d.
  Hypothesis R : forall n old s, object env (env n) old -> bytes_ok s -> good (object env (env n)) (refi n old s).
  Lemma into_object t : instantiable t = true -> forall old s, object env t old -> bytes_ok s -> good (object env t) (from_bin_into_with d refi t old s).
  Proof.
    induction t as [sg n| |n| | | | |t IH|t IH|t IH|k t IHk IHt|n t IH|n t IH|t IH|ts IH|ts IH|t IH|k t IH|n] using ty_ind'; intros T old s O Hs; pose proof (instantiable_ok _ T) as T0;
      (assert (Fr : forall t', instantiable t' = true -> object env t' (fresh_with d t')) by (apply fresh_object; exact D)); pose proof O as O'; inversion O; subst; cbn [from_bin_into_with].
    - apply good_raw; [lia|exact Hs|exact O'|]. intros b Hb L. apply (object_of_raw env (TInt sg n) n); auto. lia.
    - destruct s as [|c s]; [now split|]. assert (Hs' : bytes_ok s) by (now inversion Hs). destruct (c =? 0); [split; [constructor|exact Hs']|]. destruct (c =? 1); [split; [constructor|exact Hs']|now split].
    - apply good_raw; [lia|exact Hs|exact O'|]. intros b Hb L. apply (object_of_raw env (TFloat n) n); auto. lia.
    - destruct (varuint32_from_bin s) as [[v r]|e|w] eqn:E; [apply (vu32_ok _ _ _ Hs) in E as [E1 E2]; split; [now constructor|exact E2]|split; [|exact I]|now split]. constructor. apply dest_loop_range. lia.
    - apply (good_length _ _ _ (fun z => - 2 ^ 31 <= z < 2 ^ 31)); [exact Hs|exact O'|intros n r; now apply vi32_ok|]. intros n r Hn Hr. split; [now constructor|exact Hr].
    - apply (good_length _ _ _ (fun z => 0 <= z < 2 ^ 32)); [exact Hs|exact O'|intros n r; now apply vu32_ok|]. intros n r Hn Hr. apply good_raw; [lia|exact Hr| |intros c Hc _; now constructor].
      constructor. unfold resize. match goal with H : bytes_ok b |- _ => rename H into Hb end. rewrite <- (firstn_skipn (Z.to_nat n) b) in Hb. apply bytes_ok_app in Hb as [Hb _]. apply bytes_ok_app. split; [exact Hb|].
      apply Forall_forall. intros x Hx. apply repeat_spec in Hx as ->. unfold is_byte. lia.
    - apply (good_length _ _ _ (fun z => 0 <= z < 2 ^ 64)); [exact Hs|exact O'|intros n r; now apply vu64_ok|]. intros n r Hn Hr. destruct (check_available r n); [|now split..].
      apply good_raw; [lia|exact Hr|exact O'|intros c Hc _; now constructor].
    - cbn [instantiable] in T. apply andb_true_iff in T as [_ T]. cbn [ty_ok] in T0. destruct (bitwise_size t) as [w|] eqn:W.
      + apply (good_length _ _ _ (fun z => 0 <= z < 2 ^ 64)); [exact Hs|exact O'|intros n r; now apply vu64_ok|]. intros n r Hn Hr. cbn zeta.
        destruct (check_available r _); [|now split..]. destruct (Z.leb_spec n ((2 ^ 63 - 1) / Z.of_nat w)) as [Hmax|]; [|now split].
        assert (Hw : 0 < Z.of_nat w <= 16) by (destruct t; try discriminate W; cbn in W; inversion W; subst; cbn [ty_ok] in T0; lia).
        assert (Hsmall : n * Z.of_nat w <= 2 ^ 63 - 1) by (pose proof (Z.mul_div_le (2 ^ 63 - 1) (Z.of_nat w) ltac:(lia)); nia).
        assert (Etot : (n * Z.of_nat w) mod 2 ^ 64 = n * Z.of_nat w) by (apply Z.mod_small; nia). rewrite Etot.
        apply good_raw; [nia|exact Hr| |].
        * constructor. unfold resize. apply Forall_app. split.
          -- apply Forall_forall. intros x Hx. match goal with H : Forall (object env t) l |- _ => rewrite Forall_forall in H; apply H end. rewrite <- (firstn_skipn (Z.to_nat n) l). apply in_app_iff. now left.
          -- apply Forall_forall. intros x Hx. apply repeat_spec in Hx as ->. auto.
        * intros b Hb L. constructor. eapply object_cut; eauto. nia.
      + apply (good_length _ _ _ (fun z => 0 <= z < 2 ^ 32)); [exact Hs|exact O'|intros n r; now apply vu32_ok|]. intros n r Hn Hr.
        assert (Q : Forall (object env t) (resize (fresh_with d t) (Z.to_nat n) l)).
        { unfold resize. apply Forall_app. split.
          - apply Forall_forall. intros x Hx. match goal with H : Forall (object env t) l |- _ => rewrite Forall_forall in H; apply H end. rewrite <- (firstn_skipn (Z.to_nat n) l). apply in_app_iff. now left.
          - apply Forall_forall. intros x Hx. apply repeat_spec in Hx as ->. auto. }
        eapply good_as_list; [apply (good_fill (object env t)); [|exact Q|exact Hr]|].
        * eapply Forall_impl; [|exact Q]. intros x Ox s' Hs'. now apply IH.
        * intros l' [F _]. now constructor.
    - cbn [instantiable] in T. apply andb_true_iff in T as [_ T]. apply (good_length _ _ _ (fun z => 0 <= z < 2 ^ 32)); [exact Hs|exact O'|intros n r; now apply vu32_ok|]. intros n r Hn Hr.
      eapply good_as_list; [apply (good_append (object env t)); [|assumption|exact Hr]|intros; now constructor]. intros s' Hs'. apply IH; auto.
    - cbn [instantiable] in T. apply andb_true_iff in T as [_ T]. apply (good_length _ _ _ (fun z => 0 <= z < 2 ^ 32)); [exact Hs|exact O'|intros n r; now apply vu32_ok|]. intros n r Hn Hr.
      eapply good_as_list; [apply (good_emplace (object env t)); [|assumption|assumption|exact Hr]|intros l' [F K]; now constructor]. intros s' Hs'.
      destruct (IH T (fresh_with d t) s' (Fr t T) Hs') as [G1 G2]. destruct (from_bin_into_with d refi t (fresh_with d t) s') as [v [q|e|w]]; auto.
    - cbn [instantiable] in T. rewrite !andb_true_iff in T. destruct T as [_ [Tk Tt]]. apply (good_length _ _ _ (fun z => 0 <= z < 2 ^ 32)); [exact Hs|exact O'|intros n r; now apply vu32_ok|]. intros n r Hn Hr.
      eapply good_as_list; [apply (good_emplace (fun p => exists x y, p = VList [x; y] /\ object env k x /\ object env t y)); [|assumption|assumption|exact Hr]|intros l' [F K]; now constructor]. intros s' Hs'. unfold pair_into.
      destruct (IHk Tk (fresh_with d k) s' (Fr k Tk) Hs') as [G1 G2]. destruct (from_bin_into_with d refi k (fresh_with d k) s') as [v [q|e|w]]; auto. cbn [fst snd] in *.
      destruct (IHt Tt (fresh_with d t) q (Fr t Tt) G2) as [G3 G4]. destruct (from_bin_into_with d refi t (fresh_with d t) q) as [v2 [q2|e|w]]; auto. cbn [fst snd] in *. eauto 6.
    - cbn [instantiable] in T. apply andb_true_iff in T as [_ T]. eapply good_as_list; [apply (good_fill (object env t)); [|eassumption|exact Hs]|].
      + eapply Forall_impl; [|eassumption]. intros x Ox s' Hs'. now apply IH.
      + intros l' [F L]. now constructor.
    - cbn [instantiable] in T. apply andb_true_iff in T as [_ T]. apply (good_length _ _ _ (fun z => 0 <= z < 2 ^ 32)); [exact Hs|exact O'|intros n r; now apply vu32_ok|]. intros m r Hm Hr.
      destruct (Z.eqb_spec m (Z.of_nat (List.length l))) as [->|]; [|now split]. destruct (bitwise_size t) as [w|] eqn:W.
      + apply good_raw; [lia|exact Hr|exact O'|]. intros b Hb L. constructor; [apply cut_length|]. eapply object_cut; eauto; [now apply instantiable_ok|]. nia.
      + eapply good_as_list; [apply (good_fill (object env t)); [|eassumption|exact Hr]|].
        * eapply Forall_impl; [|eassumption]. intros x Ox s' Hs'. now apply IH.
        * intros l' [F L]. now constructor.
    - cbn [instantiable] in T. apply andb_true_iff in T as [_ T]. destruct s as [|c s]; [now split|]. assert (Hs' : bytes_ok s) by (now inversion Hs). destruct (c =? 0); [split; [constructor|exact Hs']|]. destruct (c =? 1); [|now split].
      destruct (IH T (fresh_with d t) s (Fr t T) Hs') as [G1 G2]. destruct (from_bin_into_with d refi t (fresh_with d t) s) as [v q]. split; [now constructor|exact G2].
    - cbn [instantiable] in T. apply andb_true_iff in T as [_ T]. destruct s as [|c s]; [now split|]. assert (Hs' : bytes_ok s) by (now inversion Hs). destruct (c =? 0); [split; [constructor|exact Hs']|]. destruct (c =? 1); [|now split].
      destruct (IH T (fresh_with d t) s (Fr t T) Hs') as [G1 G2]. destruct (from_bin_into_with d refi t (fresh_with d t) s) as [v q]. split; [now constructor|exact G2].
    - cbn [instantiable] in T. apply andb_true_iff in T as [_ T]. apply (good_length _ _ _ (fun z => 0 <= z < 2 ^ 32)); [exact Hs|exact O'|intros n r; now apply vu32_ok|]. intros j r Hj Hr.
      rewrite nthz_map'. destruct (nthz ts j) as [t'|] eqn:N; cbn [option_map]; [|now split].
      assert (T' : instantiable t' = true) by (apply nthz_In' in N; destruct ts; [discriminate T|]; rewrite forallb_forall in T; auto).
      pose proof (nthz_In' _ _ _ N) as Nin. rewrite Forall_forall in IH. destruct (IH t' Nin T' (fresh_with d t') r (Fr t' T') Hr) as [G1 G2].
      destruct (from_bin_into_with d refi t' (fresh_with d t') r) as [v q]. split; [|exact G2]. cbn [fst] in *. rewrite <- (Z2Nat.id j) by lia. apply (OVariant env ts _ t'); [|exact G1]. apply nthz_error; [exact N|lia].
    - cbn [instantiable] in T. apply andb_true_iff in T as [_ T]. eapply good_as_list; [apply (good_members (object env)); [|eassumption|exact Hs]|intros; now constructor].
      clear O O' T0 Hs. match goal with H : Forall2 _ ts l |- _ => induction H end; constructor.
      + inversion IH as [|? ? Ht _]; subst. intros s' Hs'. apply Ht; [|assumption|exact Hs']. cbn [forallb] in T. now apply andb_true_iff in T.
      + inversion IH; subst. cbn [forallb] in T. apply andb_true_iff in T as [_ T]. auto.
    - cbn [instantiable] in T. apply andb_true_iff in T as [_ T]. destruct s as [|c s]; [now split|]. destruct (IH T old (c :: s) ltac:(assumption) Hs) as [G1 G2]. split; [now constructor|exact G2].
    - cbn [instantiable] in T. apply andb_true_iff in T as [_ T]. destruct (IH T old s ltac:(assumption) Hs) as [G1 G2]. split; [now constructor|exact G2].
    - destruct (R n old s ltac:(assumption) Hs) as [G1 G2]. split; [now constructor|exact G2].
  Qed.
End Good.
Lemma into_object_all env d : (forall n, instantiable (env n) = true) -> defaults env d -> forall fuel t old s, instantiable t = true -> object env t old -> bytes_ok s ->
  good (object env t) (from_bin_into env d fuel t old s).
Proof.
  intros Te D. induction fuel as [|f IH]; intros t old s T O Hs; rewrite from_bin_into_unfold; apply (into_object env d); auto.
  intros n o q On Hq. now split.
Qed.

(** ** Every serializable value is an object *)
Lemma wf_object_with env refw : (forall n v, refw n v = true -> object env (env n) v) -> forall t v, wf_with refw t v = true -> object env t v.
Proof.
  intros R. induction t as [sg n| |n| | | | |t IH|t IH|t IH|k t IHk IHt|n t IH|n t IH|t IH|ts IH|ts IH|t IH|k t IH|n] using ty_ind'; intros v H; cbn [wf_with] in H.
  - destruct v; try discriminate H. now constructor.
  - destruct v; try discriminate H. now constructor.
  - destruct v as [| |m b| | | |]; try discriminate H. rewrite !andb_true_iff, orb_true_iff, !Nat.eqb_eq in H. destruct H as [[<- H1] H2]. unfold fits_u in H2. constructor; [exact H1|lia].
  - destruct v; try discriminate H. unfold fits_u in H. constructor. lia.
  - destruct v; try discriminate H. unfold fits_s in H. constructor. change (2 ^ (32 - 1)) with (2 ^ 31) in H. lia.
  - destruct v; try discriminate H. apply andb_true_iff in H as [H _]. constructor. now apply bytes_okb_spec.
  - destruct v; try discriminate H. apply andb_true_iff in H as [H _]. constructor. now apply bytes_okb_spec.
  - destruct v; try discriminate H. apply andb_true_iff in H as [_ H]. constructor. apply Forall_forallb in H. eapply Forall_impl; [|exact H]. auto.
  - destruct v; try discriminate H. apply andb_true_iff in H as [_ H]. constructor. apply Forall_forallb in H. eapply Forall_impl; [|exact H]. auto.
  - destruct v; try discriminate H. rewrite !andb_true_iff in H. destruct H as [[_ H] K]. constructor; [|exact K]. apply Forall_forallb in H. eapply Forall_impl; [|exact H]. auto.
  - destruct v; try discriminate H. rewrite !andb_true_iff in H. destruct H as [[_ H] K]. constructor; [|exact K]. apply Forall_forallb in H. eapply Forall_impl; [|exact H].
    intros p Hp. cbn beta in Hp. destruct p as [| | | |[|x [|y [|]]]| |]; try discriminate Hp. apply andb_true_iff in Hp as [Hx Hy]. exists x, y. auto.
  - destruct v; try discriminate H. apply andb_true_iff in H as [L H]. apply Nat.eqb_eq in L. constructor; [exact L|]. apply Forall_forallb in H. eapply Forall_impl; [|exact H]. auto.
  - destruct v; try discriminate H. rewrite !andb_true_iff in H. destruct H as [[L _] H]. apply Nat.eqb_eq in L. constructor; [exact L|]. apply Forall_forallb in H. eapply Forall_impl; [|exact H]. auto.
  - destruct v as [| | | | |[x|]|]; try discriminate H; constructor. auto.
  - destruct v as [| | | | | |i x]; try discriminate H. apply andb_true_iff in H as [Hi H]. unfold fits_u in Hi. rewrite nthz_map' in H. destruct (nthz ts i) as [t|] eqn:N; [|discriminate H]. cbn [option_map] in H.
    rewrite <- (Z2Nat.id i) by lia. apply (OVariant env ts _ t); [apply nthz_error; [exact N|lia]|]. rewrite Forall_forall in IH. apply IH; [eapply nthz_In'; eauto|exact H].
  - destruct v as [| | | |l| |]; try discriminate H. constructor. revert l H. induction IH as [|t ts Ht _ IHts]; intros l H; destruct l as [|x l]; try discriminate H; [constructor|]. cbn [map forallb2] in H. apply andb_true_iff in H as [H1 H2]. constructor; [apply Ht; exact H1|apply IHts; exact H2].
  - apply andb_true_iff in H as [_ H]. constructor. auto.
  - constructor. auto.
  - constructor. auto.
Qed.
Lemma wf_object env fuel : forall t v, wf env fuel t v = true -> object env t v.
Proof. induction fuel as [|f IH]; intros t v H; rewrite wf_unfold in H; (eapply wf_object_with; [|exact H]); intros n x X; [discriminate X|now apply IH]. Qed.
