(** * Facts about the native binary format (proofs only) *)
From Verif Require Import Base Stream StreamFacts TypedBin TypedSpec ValOrder.

(** ** Induction over types *)
Section TyInd.
  Variable P : ty -> Prop.
  Hypothesis HInt : forall sg n, P (TInt sg n).
  Hypothesis HBool : P TBool.
  Hypothesis HFloat : forall n, P (TFloat n).
  Hypothesis HVu : P TVaruint32.
  Hypothesis HVi : P TVarint32.
  Hypothesis HStr : P TString.
  Hypothesis HStream : P TStream.
  Hypothesis HVec : forall t, P t -> P (TVec t).
  Hypothesis HSeq : forall t, P t -> P (TSeq t).
  Hypothesis HSet : forall t, P t -> P (TSet t).
  Hypothesis HMap : forall k t, P k -> P t -> P (TMap k t).
  Hypothesis HArr : forall n t, P t -> P (TArr n t).
  Hypothesis HCArr : forall n t, P t -> P (TCArr n t).
  Hypothesis HOpt : forall t, P t -> P (TOpt t).
  Hypothesis HVariant : forall ts, Forall P ts -> P (TVariant ts).
  Hypothesis HTuple : forall ts, Forall P ts -> P (TTuple ts).
  Hypothesis HMaybe : forall t, P t -> P (TMaybe t).
  Hypothesis HWrap : forall k t, P t -> P (TWrap k t).
  Hypothesis HRef : forall n, P (TRef n).
  Fixpoint ty_ind' (t : ty) : P t :=
    match t with
    | TInt sg n => HInt sg n
    | TBool => HBool
    | TFloat n => HFloat n
    | TVaruint32 => HVu
    | TVarint32 => HVi
    | TString => HStr
    | TStream => HStream
    | TVec t => HVec t (ty_ind' t)
    | TSeq t => HSeq t (ty_ind' t)
    | TSet t => HSet t (ty_ind' t)
    | TMap k t => HMap k t (ty_ind' k) (ty_ind' t)
    | TArr n t => HArr n t (ty_ind' t)
    | TCArr n t => HCArr n t (ty_ind' t)
    | TOpt t => HOpt t (ty_ind' t)
    | TVariant ts => HVariant ts
        ((fix go ts : Forall P ts := match ts with
                                     | [] => Forall_nil P
                                     | t :: ts' => Forall_cons t (ty_ind' t) (go ts')
                                     end) ts)
    | TTuple ts => HTuple ts
        ((fix go ts : Forall P ts := match ts with
                                     | [] => Forall_nil P
                                     | t :: ts' => Forall_cons t (ty_ind' t) (go ts')
                                     end) ts)
    | TMaybe t => HMaybe t (ty_ind' t)
    | TWrap k t => HWrap k t (ty_ind' t)
    | TRef n => HRef n
    end.
End TyInd.

Lemma to_bin_unfold S env fuel :
  to_bin S env fuel = to_bin_with S (fun n v s =>
    match fuel with O => Undef "stack" | Datatypes.S f => to_bin S env f (env n) v s end).
Proof. destruct fuel; reflexivity. Qed.
Lemma from_bin_unfold env fuel :
  from_bin env fuel = from_bin_with (fun n s =>
    match fuel with O => Undef "stack" | S f => from_bin env f (env n) s end).
Proof. destruct fuel; reflexivity. Qed.
Lemma wf_unfold env fuel :
  wf env fuel = wf_with (fun n v => match fuel with O => false | S f => wf env f (env n) v end).
Proof. destruct fuel; reflexivity. Qed.

(** ** The bytes written, as a pure function *)
Definition eapp (a b : res bytes) : res bytes := let* x := a in let* y := b in Ok (x ++ y).
Definition envu (z : Z) : res bytes := if (0 <=? z) && (z <? 2 ^ 32) then Ok (encv z) else Err E_varuint_too_big.
Fixpoint enc_seq (f : val -> res bytes) (l : list val) : res bytes :=
  match l with [] => Ok [] | x :: l' => eapp (f x) (enc_seq f l') end.
Fixpoint enc_pairs (f g : val -> res bytes) (l : list val) : res bytes :=
  match l with
  | [] => Ok []
  | VList [x; y] :: l' => eapp (f x) (eapp (g y) (enc_pairs f g l'))
  | _ => Undef "ill-typed value"
  end.
Fixpoint enc_tuple (fs : list (val -> res bytes)) (l : list val) : res bytes :=
  match fs, l with
  | [], [] => Ok []
  | f :: fs', x :: l' => eapp (f x) (enc_tuple fs' l')
  | _, _ => Undef "ill-typed value"
  end.
Fixpoint enc_with (ref : nat -> val -> res bytes) (t : ty) (v : val) {struct t} : res bytes :=
  match t, v with
  | TInt _ n, VInt z => Ok (le_bytes n z)
  | TFloat n, VFloat _ b => Ok (le_bytes n b)
  | TBool, VBool b => Ok [if b then 1 else 0]
  | TVaruint32, VInt z => envu z
  | TVarint32, VInt z => envu (zigzag z)
  | TString, VStr b | TStream, VStr b => eapp (envu (Z.of_nat (List.length b))) (Ok b)
  | TVec t', VList l =>
      eapp (envu (Z.of_nat (List.length l)))
        match bitwise_size t' with
        | Some _ => raws t' l
        | None => enc_seq (enc_with ref t') l
        end
  | TCArr n t', VList l =>
      eapp (envu (Z.of_nat n))
        match bitwise_size t' with
        | Some _ => raws t' l
        | None => enc_seq (enc_with ref t') l
        end
  | TSeq t', VList l | TSet t', VList l =>
      eapp (envu (Z.of_nat (List.length l))) (enc_seq (enc_with ref t') l)
  | TMap k t', VList l =>
      eapp (envu (Z.of_nat (List.length l))) (enc_pairs (enc_with ref k) (enc_with ref t') l)
  | TArr _ t', VList l => enc_seq (enc_with ref t') l
  | TOpt _, VOpt None => Ok [0]
  | TOpt t', VOpt (Some x) => eapp (Ok [1]) (enc_with ref t' x)
  | TVariant ts, VVar i x =>
      eapp (envu i) match nthz (map (enc_with ref) ts) i with
                    | Some f => f x
                    | None => Undef "ill-typed value"
                    end
  | TTuple ts, VList l => enc_tuple (map (enc_with ref) ts) l
  | TMaybe t', _ => enc_with ref t' v
  | TWrap _ t', _ => enc_with ref t' v
  | TRef n, _ => ref n v
  | _, _ => Undef "ill-typed value"
  end.
Fixpoint enc (env : nat -> ty) (fuel : nat) : ty -> val -> res bytes :=
  enc_with (fun n v => match fuel with O => Undef "stack" | S f => enc env f (env n) v end).
Lemma enc_unfold env fuel :
  enc env fuel = enc_with (fun n v => match fuel with O => Undef "stack" | S f => enc env f (env n) v end).
Proof. destruct fuel; reflexivity. Qed.

(** Streams on which splitting a write does not matter, and which never refuse. *)
Definition hom (S : ostream) : Prop :=
  (forall s, owrite S s [] = Ok s) /\
  (forall s a b, owrite S s (a ++ b) = bind (owrite S s a) (fun s' => owrite S s' b)).
Definition tot (S : ostream) : Prop := forall s b, exists s', owrite S s b = Ok s'.

Definition rel (S : ostream) (r : res bytes) (f : ost S -> res (ost S)) : Prop :=
  match r with
  | Ok b => forall s, f s = owrite S s b
  | Err e => tot S -> forall s, f s = Err e
  | Undef w => tot S -> forall s, f s = Undef w
  end.

Lemma hom_vector : hom vector_stream.
Proof. split; cbn; intros; [now rewrite app_nil_r | now rewrite app_assoc]. Qed.
Lemma hom_size : hom size_stream.
Proof. split; cbn; intros; f_equal; [lia | rewrite app_length; lia]. Qed.
Lemma tot_vector : tot vector_stream. Proof. intros s b. eexists. reflexivity. Qed.
Lemma tot_size : tot size_stream. Proof. intros s b. eexists. reflexivity. Qed.
Lemma hom_fixed : hom fixed_buf_stream.
Proof.
  split.
  - intros [d r]. cbn. now rewrite app_nil_r, Nat.sub_0_r.
  - intros [d r] a b. cbn [owrite fixed_buf_stream]. rewrite app_length. unfold check.
    destruct (Nat.leb_spec (List.length a + List.length b) r);
    destruct (Nat.leb_spec (List.length a) r); cbn [bind]; try lia; try reflexivity.
    + destruct (Nat.leb_spec (List.length b) (r - List.length a)); [|lia]. cbn [bind].
      rewrite app_assoc. do 2 f_equal. lia.
    + destruct (Nat.leb_spec (List.length b) (r - List.length a)); [lia|]. reflexivity.
Qed.

Section Rel.
  Variable S : ostream.
  Hypothesis HS : hom S.
  Lemma rel_nil : rel S (Ok []) (fun s => Ok s).
  Proof. intros s. symmetry. apply HS. Qed.
  Lemma rel_write b : rel S (Ok b) (fun s => owrite S s b).
  Proof. intros s. reflexivity. Qed.
  Lemma rel_ext r f g : rel S r f -> (forall s, f s = g s) -> rel S r g.
  Proof. destruct r; cbn; intros H E; intros; rewrite <- E; auto. Qed.
  Lemma rel_app r1 r2 f1 f2 : rel S r1 f1 -> rel S r2 f2 ->
    rel S (eapp r1 r2) (fun s => let* s := f1 s in f2 s).
  Proof.
    unfold eapp. destruct r1 as [b1| |]; cbn; intros H1 H2.
    - destruct r2 as [b2| |]; cbn in *.
      + intros s. rewrite H1. destruct HS as [_ Happ]. rewrite Happ.
        destruct (owrite S s b1); cbn; auto.
      + intros T s. rewrite H1. destruct (T s b1) as [s' ->]. cbn. auto.
      + intros T s. rewrite H1. destruct (T s b1) as [s' ->]. cbn. auto.
    - intros T s. rewrite H1 by assumption. reflexivity.
    - intros T s. rewrite H1 by assumption. reflexivity.
  Qed.
  Lemma rel_undef w (f : ost S -> res (ost S)) : (forall s, f s = Undef w) -> rel S (Undef w) f.
  Proof. intros H T s. apply H. Qed.

  Lemma wbytes_write l s : wbytes S l s = owrite S s l.
  Proof.
    destruct HS as [Hnil Happ]. unfold wbytes. revert s; induction l as [|b l IH]; intros s; cbn.
    - symmetry; apply Hnil.
    - change (b :: l) with ([b] ++ l). rewrite Happ. destruct (owrite S s [b]); cbn; auto.
  Qed.
  Lemma rel_varuint z : rel S (envu z) (varuint32_to_bin S z).
  Proof.
    unfold envu. destruct (Z.leb_spec 0 z) as [Hz|Hz]; cbn [andb].
    2:{ intros T s. unfold varuint32_to_bin. rewrite Z.shiftr_div_pow2 by lia.
        assert (z / 2 ^ 32 < 0) by (apply Z.div_lt_upper_bound; lia).
        destruct (Z.eqb_spec (z / 2 ^ 32) 0); [lia|reflexivity]. }
    destruct (Z.ltb_spec z (2 ^ 32)).
    - intros s. rewrite varuint32_to_bin_eq by assumption. destruct (Z.ltb_spec z (2 ^ 32)); [|lia].
      apply wbytes_write.
    - intros T s. rewrite varuint32_to_bin_eq by assumption. destruct (Z.ltb_spec z (2 ^ 32)); [lia|].
      reflexivity.
  Qed.

  Lemma rel_raws t l : rel S (raws t l) (fun s => let* b := raws t l in owrite S s b).
  Proof. destruct (raws t l); cbn; auto. Qed.
  Lemma rel_seq f g l : (forall x, rel S (f x) (g x)) -> rel S (enc_seq f l) (write_seq g l).
  Proof.
    intros H. induction l as [|x l IH]; cbn [enc_seq write_seq]; [apply rel_nil|].
    apply rel_app; auto.
  Qed.
  Lemma rel_pairs f g f' g' l : (forall x, rel S (f x) (f' x)) -> (forall x, rel S (g x) (g' x)) ->
    rel S (enc_pairs f g l) (write_pairs f' g' l).
  Proof.
    intros Hf Hg. induction l as [|x l IH]; cbn [enc_pairs write_pairs]; [apply rel_nil|].
    destruct x as [| | | |[|a [|b [|]]]| |]; try (intros ? ?; reflexivity).
    apply (rel_app (f a) _ (f' a) (fun s => let* s := g' b s in write_pairs f' g' l s)); auto.
    apply rel_app; auto.
  Qed.
  Lemma rel_tuple fs gs l : Forall2 (fun f g => forall x, rel S (f x) (g x)) fs gs ->
    rel S (enc_tuple fs l) (write_tuple gs l).
  Proof.
    intros H. revert l; induction H as [|f g fs gs Hfg _ IH]; intros l.
    - destruct l; cbn; [apply rel_nil | intros ? ?; reflexivity].
    - destruct l as [|x l]; cbn [enc_tuple write_tuple]; [intros ? ?; reflexivity|].
      apply rel_app; auto.
  Qed.
  Lemma nthz_map2 {A B C} (f : A -> B) (g : A -> C) (Q : B -> C -> Prop) ts i :
    Forall (fun t => Q (f t) (g t)) ts ->
    match nthz (map f ts) i, nthz (map g ts) i with
    | Some a, Some b => Q a b
    | None, None => True
    | _, _ => False
    end.
  Proof.
    intros H. revert i; induction H as [|t ts Ht _ IH]; intros i; cbn; auto.
    destruct (i =? 0); auto. apply IH.
  Qed.

  Lemma rel_to_bin_with ref1 ref2 : (forall n v, rel S (ref1 n v) (ref2 n v)) ->
    forall t v, rel S (enc_with ref1 t v) (to_bin_with S ref2 t v).
  Proof.
    intros Href t. induction t as
      [sg n| |n| | | | |t IH|t IH|t IH|k t IHk IHt|n t IH|n t IH|t IH|ts IH|ts IH|t IH|k t IH|n] using ty_ind';
    intros v; cbn [enc_with to_bin_with];
    try (destruct v; try (apply rel_undef; reflexivity); try apply rel_write; try apply rel_varuint; fail).
    - destruct v; try (apply rel_undef; reflexivity). apply rel_app; [apply rel_varuint|apply rel_write].
    - destruct v; try (apply rel_undef; reflexivity). apply rel_app; [apply rel_varuint|apply rel_write].
    - destruct v; try (apply rel_undef; reflexivity). apply rel_app; [apply rel_varuint|].
      destruct (bitwise_size t); [apply rel_raws | now apply rel_seq].
    - destruct v; try (apply rel_undef; reflexivity). apply rel_app; [apply rel_varuint|]. now apply rel_seq.
    - destruct v; try (apply rel_undef; reflexivity). apply rel_app; [apply rel_varuint|]. now apply rel_seq.
    - destruct v; try (apply rel_undef; reflexivity). apply rel_app; [apply rel_varuint|]. now apply rel_pairs.
    - destruct v; try (apply rel_undef; reflexivity). now apply rel_seq.
    - destruct v; try (apply rel_undef; reflexivity). apply rel_app; [apply rel_varuint|].
      destruct (bitwise_size t); [apply rel_raws | now apply rel_seq].
    - destruct v as [| | | | |[x|]|]; try (apply rel_undef; reflexivity); [|apply rel_write].
      apply rel_app; [apply rel_write|apply IH].
    - destruct v; try (apply rel_undef; reflexivity). apply rel_app; [apply rel_varuint|].
      pose proof (nthz_map2 (enc_with ref1) (to_bin_with S ref2)
                    (fun f g => forall v, rel S (f v) (g v)) ts i IH) as HN.
      destruct (nthz (map (enc_with ref1) ts) i), (nthz (map (to_bin_with S ref2) ts) i);
        try contradiction; [apply HN | apply rel_undef; reflexivity].
    - destruct v; try (apply rel_undef; reflexivity). apply rel_tuple.
      clear -IH. induction IH; cbn; constructor; auto.
    - destruct v; apply IH.
    - destruct v; apply IH.
    - destruct v; apply Href.
  Qed.

  Lemma rel_to_bin env fuel t v : rel S (enc env fuel t v) (to_bin S env fuel t v).
  Proof.
    revert t v; induction fuel as [|fuel IH]; intros t v; rewrite enc_unfold, to_bin_unfold;
      apply rel_to_bin_with; intros n x.
    - intros T s. reflexivity.
    - apply IH.
  Qed.
End Rel.

(** What the three streams do, in terms of [enc]. *)
Lemma to_bin_vector env fuel t v d :
  to_bin vector_stream env fuel t v d = let* b := enc env fuel t v in Ok (d ++ b).
Proof.
  pose proof (rel_to_bin vector_stream hom_vector env fuel t v) as H.
  unfold rel in H. destruct (enc env fuel t v); cbn [bind];
    rewrite H; auto using tot_vector.
Qed.
Lemma to_bin_size env fuel t v n :
  to_bin size_stream env fuel t v n = let* b := enc env fuel t v in Ok (n + List.length b)%nat.
Proof.
  pose proof (rel_to_bin size_stream hom_size env fuel t v) as H.
  unfold rel in H. destruct (enc env fuel t v); cbn [bind];
    rewrite H; auto using tot_size.
Qed.
Lemma to_bin_fixed env fuel t v b s : enc env fuel t v = Ok b ->
  to_bin fixed_buf_stream env fuel t v s = owrite fixed_buf_stream s b.
Proof.
  intros E. pose proof (rel_to_bin fixed_buf_stream hom_fixed env fuel t v) as H.
  rewrite E in H. apply H.
Qed.
Lemma convert_to_bin_eq env fuel t v bin :
  convert_to_bin env fuel t v bin = to_bin vector_stream env fuel t v bin.
Proof.
  unfold convert_to_bin. rewrite to_bin_size, to_bin_vector.
  destruct (enc env fuel t v) as [b| |] eqn:E; cbn [bind]; auto.
  rewrite (to_bin_fixed env fuel t v b _ E). cbn [owrite fixed_buf_stream].
  unfold check. rewrite Nat.leb_refl. cbn [bind Nat.add]. rewrite Nat.sub_diag. reflexivity.
Qed.

(** ** Round trip *)
Definition rt (dec : istream -> res (val * istream)) (v : val) (e : res bytes) : Prop :=
  exists b, e = Ok b /\ bytes_ok b /\ forall rest, bytes_ok rest -> dec (b ++ rest) = Ok (v, rest).

Lemma sread_app b rest n : n = Z.of_nat (List.length b) -> sread (b ++ rest) n = Ok (b, rest).
Proof.
  intros ->. unfold sread, check. rewrite app_length.
  destruct (Z.leb_spec (Z.of_nat (List.length b)) (Z.of_nat (List.length b + List.length rest))); [|lia].
  cbn [bind]. rewrite Nat2Z.id. rewrite firstn_app, skipn_app, Nat.sub_diag, firstn_all, skipn_all.
  cbn. now rewrite app_nil_r.
Qed.
Lemma avail_app b rest n : n <= Z.of_nat (List.length b) -> check_available (b ++ rest) n = Ok tt.
Proof.
  intros H. unfold check_available, check. rewrite app_length.
  destruct (Z.leb_spec n (Z.of_nat (List.length b + List.length rest))); [reflexivity|lia].
Qed.

Lemma pow256 n : 256 ^ Z.of_nat n = 2 ^ (8 * Z.of_nat n).
Proof. rewrite Z.pow_mul_r by lia. reflexivity. Qed.
Lemma le_bytes_mod n z : le_bytes n z = le_bytes n (z mod 256 ^ Z.of_nat n).
Proof.
  rewrite <- (le_bytes_le_val (le_bytes n z) n) by (auto using le_bytes_ok; now rewrite le_bytes_length).
  now rewrite le_val_le_bytes_mod.
Qed.
Lemma of_raw_int sg n z : int_ok sg n z = true -> of_raw (TInt sg n) (le_bytes n z) = VInt z.
Proof.
  unfold int_ok. intros H. apply andb_true_iff in H as [H1 H2]. cbn [of_raw].
  rewrite le_val_le_bytes_mod, pow256. destruct sg.
  - unfold fits_s in H2. f_equal.
    change (z mod 2 ^ (8 * Z.of_nat n)) with (to_unsigned (8 * Z.of_nat n) z).
    apply to_signed_unsigned; lia.
  - unfold fits_u in H2. f_equal. apply Z.mod_small. lia.
Qed.
Lemma of_raw_float n b : fits_u (8 * Z.of_nat n) b = true -> of_raw (TFloat n) (le_bytes n b) = VFloat n b.
Proof.
  unfold fits_u. intros H. cbn. rewrite le_val_le_bytes_mod, pow256. f_equal. apply Z.mod_small. lia.
Qed.

Lemma raws_cut ref t w l : bitwise_size t = Some w -> forallb (wf_with ref t) l = true ->
  exists b, raws t l = Ok b /\ bytes_ok b /\ List.length b = (w * List.length l)%nat /\ (forall rest, cut t w (List.length l) (b ++ rest) = l).
Proof.
  intros Hw. induction l as [|v l IH]; intros H; cbn [forallb raws] in *.
  - exists []. cbn. repeat split; auto; lia.
  - apply andb_true_iff in H as [Hv Hl]. destruct (IH Hl) as (b & Eb & Hb & Hlen & Hcut).
    assert (Hr : exists a, raw_bytes t v = Ok a /\ bytes_ok a /\ List.length a = w /\ of_raw t a = v).
    { destruct t; try discriminate; cbn in Hw; inversion Hw; subst; destruct v; try discriminate; cbn [wf_with] in Hv.
      - exists (le_bytes w z). repeat split; auto using le_bytes_ok, le_bytes_length, of_raw_int.
      - apply andb_true_iff in Hv as [Hn Hv]. apply andb_true_iff in Hn as [Hn _]. apply Nat.eqb_eq in Hn. subst.
        eexists. split; [reflexivity|]. repeat split; auto using le_bytes_ok, le_bytes_length, of_raw_float. }
    destruct Hr as (a & Ea & Ha & Hla & Hoa). rewrite Ea, Eb. cbn [bind].
    exists (a ++ b). split; [reflexivity|]. split; [apply bytes_ok_app; auto|].
    split; [rewrite app_length; cbn; lia|].
    intros rest. cbn [List.length cut]. rewrite <- app_assoc.
    rewrite firstn_app, skipn_app, Hla, Nat.sub_diag. rewrite <- Hla at 1 3. rewrite firstn_all, skipn_all.
    cbn [firstn skipn app]. rewrite app_nil_r, Hoa. f_equal. apply Hcut.
Qed.

Lemma rt_app_vu (n : Z) (e : res bytes) (dec : istream -> res (val * istream)) v
   (k : Z -> istream -> res (val * istream)) :
  0 <= n < 2 ^ 32 ->
  (forall s, dec s = let* (m, s') := varuint32_from_bin s in k m s') ->
  rt (k n) v e -> rt dec v (eapp (envu n) e).
Proof.
  intros Hn Hdec (b & -> & Hb & Hk). unfold envu.
  destruct (Z.leb_spec 0 n); [|lia]. destruct (Z.ltb_spec n (2 ^ 32)); [|lia]. cbn [andb eapp bind].
  exists (encv n ++ b). split; [reflexivity|]. split; [apply bytes_ok_app; split; auto; apply encv_ok; lia|].
  intros rest Hr. rewrite Hdec, <- app_assoc, varuint32_roundtrip by (auto; apply bytes_ok_app; auto).
  cbn [bind]. now apply Hk.
Qed.
Lemma rt_app_vu64 (n : Z) (e : res bytes) (dec : istream -> res (val * istream)) v
   (k : Z -> istream -> res (val * istream)) :
  0 <= n < 2 ^ 32 ->
  (forall s, dec s = let* (m, s') := varuint64_from_bin s in k m s') ->
  rt (k n) v e -> rt dec v (eapp (envu n) e).
Proof.
  intros Hn Hdec (b & -> & Hb & Hk). unfold envu.
  destruct (Z.leb_spec 0 n); [|lia]. destruct (Z.ltb_spec n (2 ^ 32)); [|lia]. cbn [andb eapp bind].
  exists (encv n ++ b). split; [reflexivity|]. split; [apply bytes_ok_app; split; auto; apply encv_ok; lia|].
  intros rest Hr. rewrite Hdec, <- app_assoc, varuint64_roundtrip by (auto; apply bytes_ok_app; auto).
  cbn [bind]. now apply Hk.
Qed.

Lemma rt_seq f e l : Forall (fun x => rt f x (e x)) l ->
  exists b, enc_seq e l = Ok b /\ bytes_ok b /\ forall rest, bytes_ok rest -> read_list f (List.length l) (b ++ rest) = Ok (l, rest).
Proof.
  induction 1 as [|x l (a & Ea & Ha & Hfa) _ (b & Eb & Hb & Hfb)]; cbn [enc_seq].
  - exists []. repeat split; auto.
  - rewrite Ea, Eb. exists (a ++ b). split; [reflexivity|]. split; [apply bytes_ok_app; auto|].
    intros rest Hr. cbn [List.length read_list]. rewrite <- app_assoc, Hfa by (apply bytes_ok_app; auto).
    cbn [bind]. rewrite Hfb by assumption. reflexivity.
Qed.

Definition pair_dec (f g : istream -> res (val * istream)) : istream -> res (val * istream) :=
  fun s => let* (x, s) := f s in let* (y, s) := g s in Ok (VList [x; y], s).
Lemma rt_pairs f g ef eg l :
  Forall (fun p => exists x y, p = VList [x; y] /\ rt f x (ef x) /\ rt g y (eg y)) l ->
  exists b, enc_pairs ef eg l = Ok b /\ bytes_ok b /\ forall rest, bytes_ok rest -> read_list (pair_dec f g) (List.length l) (b ++ rest) = Ok (l, rest).
Proof.
  induction 1 as [|p l (x & y & -> & (a & Ea & Ha & Hfa) & (c & Ec & Hc & Hfc)) _ (b & Eb & Hb & Hfb)]; cbn [enc_pairs].
  - exists []. repeat split; auto.
  - rewrite Ea, Ec, Eb. cbn [eapp bind]. exists (a ++ c ++ b). split; [reflexivity|].
    split; [rewrite !bytes_ok_app; auto|].
    intros rest Hr. cbn [List.length read_list]. unfold pair_dec at 1.
    rewrite <- !app_assoc, Hfa by (rewrite !bytes_ok_app; auto).
    cbn [bind]. rewrite Hfc by (rewrite !bytes_ok_app; auto). cbn [bind].
    rewrite Hfb by assumption. reflexivity.
Qed.

Lemma set_emplace_last key x l :
  Forall (fun y => vcmp (key y) (key x) = Lt) l -> (forall y, vcmp (key y) (key x) = Lt -> vcmp (key x) (key y) = Gt) ->
  set_emplace key x l = l ++ [x].
Proof.
  intros H Hs. induction H as [|y l Hy _ IH]; cbn; auto.
  rewrite (Hs y Hy). now rewrite IH.
Qed.

Lemma emplace_all_sorted key l acc :
  strictly_sorted key l = true -> forallb (fun x => negb (has_nan (key x))) l = true ->
  Forall (fun y => Forall (fun x => vcmp (key y) (key x) = Lt) l) acc ->
  emplace_all key l acc = Ok (acc ++ l).
Proof.
  revert acc; induction l as [|x l IH]; intros acc Hs Hn Ha; cbn [emplace_all].
  - now rewrite app_nil_r.
  - cbn [strictly_sorted forallb] in Hs, Hn. apply andb_true_iff in Hs as [Hx Hs], Hn as [Hnx Hn].
    destruct (has_nan (key x)); [discriminate|].
    rewrite set_emplace_last.
    + rewrite IH; auto.
      * now rewrite <- app_assoc.
      * apply Forall_app. split.
        -- eapply Forall_impl; [|exact Ha]. cbn. intros y Hy. now inversion Hy.
        -- constructor; auto. rewrite forallb_forall in Hx. apply Forall_forall. intros y Hy.
           specialize (Hx y Hy). destruct (vcmp (key x) (key y)); congruence.
    + eapply Forall_impl; [|exact Ha]. cbn. intros y Hy. now inversion Hy.
    + intros y Hy. now apply vcmp_gt_lt.
Qed.
Lemma emplace_all_keys_ok key l : keys_ok key l = true -> emplace_all key l [] = Ok l.
Proof.
  intros H. unfold keys_ok in H. apply andb_true_iff in H as [H1 H2].
  now rewrite emplace_all_sorted.
Qed.

Lemma len_ok_range {A} (l : list A) : len_ok l = true -> 0 <= Z.of_nat (List.length l) < 2 ^ 32.
Proof. unfold len_ok. lia. Qed.

Lemma rt_ext f g v e : rt f v e -> (forall s, f s = g s) -> rt g v e.
Proof. intros (b & E & Hb & H) Hfg. exists b. repeat split; auto. intros. rewrite <- Hfg. auto. Qed.

Lemma Forall_rt (wfr : val -> bool) f e l :
  (forall v, wfr v = true -> rt f v (e v)) -> forallb wfr l = true -> Forall (fun x => rt f x (e x)) l.
Proof. intros H Hl. rewrite forallb_forall in Hl. apply Forall_forall. auto. Qed.

Lemma rt_tuple fs es ws l :
  Forall2 (fun (w : val -> bool) (p : (istream -> res (val * istream)) * (val -> res bytes)) =>
             forall v, w v = true -> rt (fst p) v (snd p v)) ws (combine fs es) ->
  List.length fs = List.length es ->
  forallb2 ws l = true ->
  exists b, enc_tuple es l = Ok b /\ bytes_ok b /\
    forall rest, bytes_ok rest -> read_tuple fs (b ++ rest) = Ok (l, rest).
Proof.
  revert es ws l; induction fs as [|f fs IH]; intros [|e es] ws l H Hlen Hl; try discriminate.
  - cbn in H. inversion H; subst. destruct l; [|discriminate].
    exists []. repeat split; auto.
  - cbn in H. inversion H as [|w p ws' ps' Hp Hps]; subst. destruct l as [|x l]; [discriminate|].
    cbn in Hl. apply andb_true_iff in Hl as [Hx Hl].
    destruct (Hp x Hx) as (a & Ea & Ha & Hfa). cbn in Ea, Hfa.
    destruct (IH es ws' l Hps ltac:(cbn in Hlen; lia) Hl) as (b & Eb & Hb & Hfb).
    cbn [enc_tuple]. rewrite Ea, Eb. exists (a ++ b). split; [reflexivity|].
    split; [apply bytes_ok_app; auto|].
    intros rest Hr. cbn [read_tuple]. rewrite <- app_assoc, Hfa by (apply bytes_ok_app; auto).
    cbn [bind]. rewrite Hfb by assumption. reflexivity.
Qed.

Lemma eapp_envu_nonempty n e b : eapp (envu n) e = Ok b -> b <> [].
Proof.
  unfold envu. destruct (_ && _); cbn; [|discriminate]. destruct e; cbn; try discriminate.
  intros H. inversion H; subst; clear H. pose proof (encv_len n) as HL. intros HC. apply app_eq_nil in HC as [HC _]. rewrite HC in HL. cbn in HL. lia.
Qed.
Lemma maybe_nonempty ref t v b : maybe_ok t = true -> enc_with ref t v = Ok b -> b <> [].
Proof.
  destruct t; try discriminate; intros _; destruct v; cbn [enc_with]; try discriminate;
    apply eapp_envu_nonempty.
Qed.

Lemma rt_with refw refe refd :
  (forall n v, refw n v = true -> rt (refd n) v (refe n v)) ->
  forall t v, wf_with refw t v = true -> rt (from_bin_with refd t) v (enc_with refe t v).
Proof.
  intros Href t. induction t as
    [sg n| |n| | | | |t IH|t IH|t IH|k t IHk IHt|n t IH|n t IH|t IH|ts IH|ts IH|t IH|k t IH|n] using ty_ind';
    intros v Hv.
  - (* TInt *)
    destruct v; try discriminate. cbn [wf_with] in Hv. exists (le_bytes n z).
    repeat split; auto using le_bytes_ok. intros rest Hr. cbn [from_bin_with].
    rewrite sread_app by (now rewrite le_bytes_length). cbn [bind]. now rewrite of_raw_int.
  - (* TBool *)
    destruct v as [|b| | | | |]; try discriminate. exists [if b then 1 else 0].
    split; [reflexivity|]. split; [repeat constructor; destruct b; unfold is_byte; lia|].
    intros rest Hr. destruct b; reflexivity.
  - (* TFloat *)
    destruct v; try discriminate. cbn [wf_with] in Hv.
    apply andb_true_iff in Hv as [Hn Hv]. apply andb_true_iff in Hn as [Hn _].
    apply Nat.eqb_eq in Hn. subst size.
    exists (le_bytes n bits). repeat split; auto using le_bytes_ok. intros rest Hr. cbn [from_bin_with].
    rewrite sread_app by (now rewrite le_bytes_length). cbn [bind]. now rewrite of_raw_float.
  - (* TVaruint32 *)
    destruct v; try discriminate. cbn [wf_with] in Hv. unfold fits_u in Hv.
    exists (encv z). split; [|split].
    + cbn. unfold envu. destruct (Z.leb_spec 0 z); [|lia]. destruct (Z.ltb_spec z (2 ^ 32)); [|lia]. reflexivity.
    + apply encv_ok. lia.
    + intros rest Hr. cbn [from_bin_with]. rewrite varuint32_roundtrip by (auto; lia). reflexivity.
  - (* TVarint32 *)
    destruct v; try discriminate. cbn [wf_with] in Hv. unfold fits_s in Hv.
    change (2 ^ (32 - 1)) with (2 ^ 31) in Hv.
    assert (Hz : 0 <= zigzag z < 2 ^ 32) by (apply zigzag_range; lia).
    exists (encv (zigzag z)). split; [|split].
    + cbn. unfold envu. destruct (Z.leb_spec 0 (zigzag z)); [|lia]. destruct (Z.ltb_spec (zigzag z) (2 ^ 32)); [|lia]. reflexivity.
    + apply encv_ok. lia.
    + intros rest Hr. cbn [from_bin_with]. rewrite varint32_roundtrip by (auto; lia). reflexivity.
  - (* TString *)
    destruct v; try discriminate. cbn [wf_with] in Hv. apply andb_true_iff in Hv as [Hb Hl].
    apply bytes_okb_spec in Hb. apply len_ok_range in Hl. cbn [enc_with].
    apply rt_app_vu with (k := fun n s => let* (b, s) := sread s n in Ok (VStr b, s)); [exact Hl|reflexivity|].
    exists s. repeat split; auto. intros rest Hr. now rewrite sread_app.
  - (* TStream *)
    destruct v; try discriminate. cbn [wf_with] in Hv. apply andb_true_iff in Hv as [Hb Hl].
    apply bytes_okb_spec in Hb. apply len_ok_range in Hl. cbn [enc_with].
    apply rt_app_vu64 with (k := fun n s => let* _ := check_available s n in let* (b, s) := sread s n in Ok (VStr b, s)); [exact Hl|reflexivity|].
    exists s. repeat split; auto. intros rest Hr. rewrite avail_app by lia. cbn [bind]. now rewrite sread_app.
  - (* TVec *)
    destruct v; try discriminate. cbn [wf_with] in Hv. apply andb_true_iff in Hv as [Hl Hall].
    apply len_ok_range in Hl. cbn [enc_with].
    destruct (bitwise_size t) as [w|] eqn:Ew.
    + apply rt_app_vu64 with (k := fun n s =>
            let total := (n * Z.of_nat w) mod 2 ^ 64 in
            let* _ := check_available s total in
            let* _ := check (n <=? (2 ^ 63 - 1) / Z.of_nat w) E_length_error in
            let* (b, s) := sread s total in
            Ok (VList (cut t w (Z.to_nat n) b), s)); [exact Hl|cbn [from_bin_with]; rewrite Ew; reflexivity|].
      destruct (raws_cut refw t w l Ew Hall) as (b & Eb & Hb & Hlb & Hcut).
      exists b. repeat split; auto. intros rest Hr. cbn zeta.
      assert (Hw : l = [] \/ 0 < Z.of_nat w <= 16).
      { destruct l as [|x l]; [auto|right]. cbn in Hall. apply andb_true_iff in Hall as [Hx _].
        destruct t; try discriminate; cbn in Ew; inversion Ew; subst; destruct x; try discriminate; cbn [wf_with] in Hx.
        - unfold int_ok in Hx. lia.
        - apply andb_true_iff in Hx as [Hx _]. lia. }
      assert (E : (Z.of_nat (List.length l) * Z.of_nat w) mod 2 ^ 64 = Z.of_nat (List.length b)).
      { destruct Hw as [->|Hw]; [rewrite Hlb; cbn; now rewrite Nat.mul_0_r|].
        rewrite Z.mod_small; [lia|]. nia. }
      rewrite E, avail_app by lia. cbn [bind]. unfold check.
      assert (E2 : (Z.of_nat (List.length l) <=? (2 ^ 63 - 1) / Z.of_nat w) = true).
      { destruct Hw as [->|Hw]; [apply Z.leb_le; cbn [List.length Z.of_nat]; destruct w; [cbn; lia|apply Z.div_pos; lia]|].
        apply Z.leb_le. apply Z.div_le_lower_bound; [lia|]. nia. }
      rewrite E2. cbn [bind]. rewrite sread_app by reflexivity. cbn [bind].
      rewrite Nat2Z.id. specialize (Hcut []). rewrite app_nil_r in Hcut. now rewrite Hcut.
    + apply rt_app_vu with (k := fun n s => let* (l, s) := read_list (from_bin_with refd t) (Z.to_nat n) s in Ok (VList l, s));
        [exact Hl|cbn [from_bin_with]; rewrite Ew; reflexivity|].
      destruct (rt_seq (from_bin_with refd t) (enc_with refe t) l (Forall_rt _ _ _ _ IH Hall)) as (b & Eb & Hb & Hrd).
      exists b. repeat split; auto. intros rest Hr. rewrite Nat2Z.id, Hrd by assumption. reflexivity.
  - (* TSeq *)
    destruct v; try discriminate. cbn [wf_with] in Hv. apply andb_true_iff in Hv as [Hl Hall].
    apply len_ok_range in Hl. cbn [enc_with].
    apply rt_app_vu with (k := fun n s => let* (l, s) := read_list (from_bin_with refd t) (Z.to_nat n) s in Ok (VList l, s));
        [exact Hl|reflexivity|].
    destruct (rt_seq (from_bin_with refd t) (enc_with refe t) l (Forall_rt _ _ _ _ IH Hall)) as (b & Eb & Hb & Hrd).
    exists b. repeat split; auto. intros rest Hr. rewrite Nat2Z.id, Hrd by assumption. reflexivity.
  - (* TSet *)
    destruct v; try discriminate. cbn [wf_with] in Hv. apply andb_true_iff in Hv as [Hv Hk].
    apply andb_true_iff in Hv as [Hl Hall].
    apply len_ok_range in Hl. cbn [enc_with].
    apply rt_app_vu with (k := fun n s => let* (l, s) := read_list (from_bin_with refd t) (Z.to_nat n) s in
                                          let* l := emplace_all id_key l [] in Ok (VList l, s));
        [exact Hl|reflexivity|].
    destruct (rt_seq (from_bin_with refd t) (enc_with refe t) l (Forall_rt _ _ _ _ IH Hall)) as (b & Eb & Hb & Hrd).
    exists b. repeat split; auto. intros rest Hr. rewrite Nat2Z.id, Hrd by assumption. cbn [bind].
    rewrite emplace_all_keys_ok by assumption. reflexivity.
  - (* TMap *)
    destruct v; try discriminate. cbn [wf_with] in Hv. apply andb_true_iff in Hv as [Hv Hk].
    apply andb_true_iff in Hv as [Hl Hall].
    apply len_ok_range in Hl. cbn [enc_with].
    apply rt_app_vu with (k := fun n s => let* (l, s) := read_list (pair_dec (from_bin_with refd k) (from_bin_with refd t)) (Z.to_nat n) s in
                                          let* l := emplace_all pair_key l [] in Ok (VList l, s));
        [exact Hl|reflexivity|].
    assert (HF : Forall (fun p => exists x y, p = VList [x; y] /\ rt (from_bin_with refd k) x (enc_with refe k x)
                                   /\ rt (from_bin_with refd t) y (enc_with refe t y)) l).
    { rewrite forallb_forall in Hall. apply Forall_forall. intros p Hp. specialize (Hall p Hp).
      destruct p as [| | | |[|x [|y [|]]]| |]; try discriminate. apply andb_true_iff in Hall as [Hx Hy].
      exists x, y. auto. }
    destruct (rt_pairs _ _ _ _ l HF) as (b & Eb & Hb & Hrd).
    exists b. repeat split; auto. intros rest Hr. rewrite Nat2Z.id, Hrd by assumption. cbn [bind].
    rewrite emplace_all_keys_ok by assumption. reflexivity.
  - (* TArr *)
    destruct v; try discriminate. cbn [wf_with] in Hv. apply andb_true_iff in Hv as [Hl Hall].
    apply Nat.eqb_eq in Hl. cbn [enc_with].
    destruct (rt_seq (from_bin_with refd t) (enc_with refe t) l (Forall_rt _ _ _ _ IH Hall)) as (b & Eb & Hb & Hrd).
    exists b. repeat split; auto. intros rest Hr. cbn [from_bin_with]. rewrite <- Hl, Hrd by assumption. reflexivity.
  - (* TCArr *)
    destruct v; try discriminate. cbn [wf_with] in Hv. apply andb_true_iff in Hv as [Hv Hall].
    apply andb_true_iff in Hv as [Hl Hlo]. apply Nat.eqb_eq in Hl. apply len_ok_range in Hlo. cbn [enc_with].
    apply rt_app_vu with (k := fun m s =>
        let* _ := check (m =? Z.of_nat n) E_array_size_mismatch in
        match bitwise_size t with
        | Some w => let* (b, s) := sread s (m * Z.of_nat w) in Ok (VList (cut t w n b), s)
        | None => let* (l, s) := read_list (from_bin_with refd t) n s in Ok (VList l, s)
        end); [rewrite <- Hl; exact Hlo|reflexivity|].
    destruct (bitwise_size t) as [w|] eqn:Ew.
    + destruct (raws_cut refw t w l Ew Hall) as (b & Eb & Hb & Hlb & Hcut).
      exists b. repeat split; auto. intros rest Hr. unfold check. rewrite Z.eqb_refl. cbn [bind].
      rewrite sread_app by (rewrite Hlb, <- Hl; lia). cbn [bind].
      specialize (Hcut []). rewrite app_nil_r, Hl in Hcut. now rewrite Hcut.
    + destruct (rt_seq (from_bin_with refd t) (enc_with refe t) l (Forall_rt _ _ _ _ IH Hall)) as (b & Eb & Hb & Hrd).
      exists b. repeat split; auto. intros rest Hr. unfold check. rewrite Z.eqb_refl. cbn [bind].
      rewrite <- Hl, Hrd by assumption. reflexivity.
  - (* TOpt *)
    destruct v as [| | | | |[x|]|]; try discriminate; cbn [wf_with] in Hv.
    + destruct (IH x Hv) as (b & Eb & Hb & Hrd). cbn [enc_with]. rewrite Eb. cbn [eapp bind].
      exists (1 :: b). split; [reflexivity|]. split; [constructor; auto; unfold is_byte; lia|].
      intros rest Hr. cbn [from_bin_with app read_u8 bind]. cbn [Z.eqb]. rewrite Hrd by assumption. reflexivity.
    + exists [0]. repeat split; auto. repeat constructor; lia.
  - (* TVariant *)
    destruct v; try discriminate. cbn [wf_with] in Hv. apply andb_true_iff in Hv as [Hi Hv].
    unfold fits_u in Hi. cbn [enc_with].
    apply rt_app_vu with (k := fun i s => match nthz (map (from_bin_with refd) ts) i with
        | Some f => let* (x, s) := f s in Ok (VVar i x, s)
        | None => Err E_bad_variant_index
        end); [lia|reflexivity|].
    clear Hi. assert (HN : forall j,
       match nthz (map (wf_with refw) ts) j with Some f => f v | None => false end = true ->
       exists d e, nthz (map (from_bin_with refd) ts) j = Some d /\ nthz (map (enc_with refe) ts) j = Some e /\ rt d v (e v)).
    { clear Hv. induction IH as [|t ts Ht _ IHts]; intros j Hj; cbn [map nthz] in *; [discriminate|].
      destruct (j =? 0); [|now apply IHts]. eexists _, _. repeat split. now apply Ht. }
    destruct (HN i Hv) as (d & e & -> & -> & (b & Eb & Hb & Hrd)).
    exists b. repeat split; auto. intros rest Hr. rewrite Hrd by assumption. reflexivity.
  - (* TTuple *)
    destruct v; try discriminate. cbn [wf_with] in Hv. cbn [enc_with].
    destruct (rt_tuple (map (from_bin_with refd) ts) (map (enc_with refe) ts) (map (wf_with refw) ts) l) as (b & Eb & Hb & Hrd); auto.
    + clear -IH. induction IH; cbn; constructor; auto.
    + now rewrite !map_length.
    + exists b. repeat split; auto. intros rest Hr. cbn [from_bin_with]. rewrite Hrd by assumption. reflexivity.
  - (* TMaybe *)
    assert (Hv' : maybe_ok t && wf_with refw t v = true) by (destruct v; exact Hv).
    apply andb_true_iff in Hv' as [Hm Hv']. destruct (IH v Hv') as (b & Eb & Hb & Hrd).
    exists b. split; [destruct v; exact Eb|]. split; [exact Hb|].
    intros rest Hr. cbn [from_bin_with].
    pose proof (maybe_nonempty refe t v b Hm Eb). destruct b as [|c b]; [congruence|].
    cbn [app]. apply (Hrd rest Hr).
  - (* TWrap *) destruct v; apply IH; exact Hv.
  - (* TRef *) destruct v; apply Href; exact Hv.
Qed.

Lemma rt_bin env fuel t v : wf env fuel t v = true -> rt (from_bin env fuel t) v (enc env fuel t v).
Proof.
  revert t v; induction fuel as [|fuel IH]; intros t v; rewrite wf_unfold, from_bin_unfold, enc_unfold;
    apply rt_with; intros n x Hx; [discriminate|]. now apply IH.
Qed.

Lemma native_bin_roundtrip env fuel t v : wf env fuel t v = true ->
  exists bin, to_bin vector_stream env fuel t v [] = Ok bin /\
    forall rest, bytes_ok rest -> from_bin env fuel t (bin ++ rest) = Ok (v, rest).
Proof.
  intros H. destruct (rt_bin env fuel t v H) as (b & Eb & Hb & Hrd).
  exists b. rewrite to_bin_vector, Eb. auto.
Qed.
