From Verif Require Import Base Stream StreamFacts TypedBin TypedSpec TypedBinFacts ToKey StreamMem StreamMemSpec.

(** ** A writer template is a series of writes, the same for every stream *)
Inductive ending := Fine | Throws (e : error) | Bad (w : string).
Definition finish (S : ostream) (en : ending) (s : ost S) : res (ost S) := match en with Fine => Ok s | Throws e => Err e | Bad w => Undef w end.
Definition pieces (f : forall S : ostream, ost S -> res (ost S)) : Prop :=
  exists ws en, forall S s, f S s = bind (wlist S ws s) (finish S en).

Lemma wlist_app S a b s : wlist S (a ++ b) s = bind (wlist S a s) (wlist S b).
Proof. unfold wlist. revert s; induction a as [|x a IH]; intros s; cbn [app mfold]; [reflexivity|]. destruct (owrite S s x); cbn [bind]; auto. Qed.
Lemma bind_bind {A B C} (x : res A) (f : A -> res B) (g : B -> res C) : bind (bind x f) g = bind x (fun a => bind (f a) g).
Proof. destruct x; reflexivity. Qed.

Lemma pc_nil : pieces (fun S s => Ok s).
Proof. exists [], Fine. reflexivity. Qed.
Lemma pc_write b : pieces (fun S s => owrite S s b).
Proof. exists [b], Fine. intros S s. unfold wlist. cbn [mfold]. destruct (owrite S s b); reflexivity. Qed.
Lemma pc_err e : pieces (fun S s => Err e).
Proof. exists [], (Throws e). reflexivity. Qed.
Lemma pc_undef w : pieces (fun S s => Undef w).
Proof. exists [], (Bad w). reflexivity. Qed.
Lemma pc_ext f g : pieces f -> (forall S s, f S s = g S s) -> pieces g.
Proof. intros (ws & en & H) E. exists ws, en. intros S s. rewrite <- E. apply H. Qed.
Lemma pc_app f g : pieces f -> pieces g -> pieces (fun S s => let* s := f S s in g S s).
Proof.
  intros (wa & ea & Ha) (wb & eb & Hb). destruct ea.
  - exists (wa ++ wb), eb. intros S s. rewrite Ha, wlist_app, !bind_bind. destruct (wlist S wa s); cbn [bind finish]; auto.
  - exists wa, (Throws e). intros S s. rewrite Ha. destruct (wlist S wa s); reflexivity.
  - exists wa, (Bad w). intros S s. rewrite Ha. destruct (wlist S wa s); reflexivity.
Qed.
Lemma pc_loop f : forall z, pieces (fun S s => varuint32_to_bin_loop f S z s).
Proof.
  induction f as [|f IH]; intros z; cbn [varuint32_to_bin_loop]; [apply pc_undef|].
  apply (pc_app (fun S s => owrite S s _) (fun S s' => if Z.shiftr z 7 =? 0 then Ok s' else varuint32_to_bin_loop f S (Z.shiftr z 7) s')); [apply pc_write|].
  destruct (Z.shiftr z 7 =? 0); [apply pc_nil|apply IH].
Qed.
Lemma pc_varuint z : pieces (fun S s => varuint32_to_bin S z s).
Proof.
  unfold varuint32_to_bin, check. destruct (Z.shiftr z 32 =? 0); cbn [bind]; [apply pc_loop|apply pc_err].
Qed.
Lemma pc_varint z : pieces (fun S s => varint32_to_bin S z s).
Proof. apply pc_varuint. Qed.
Lemma pc_raws t l : pieces (fun S s => let* b := raws t l in owrite S s b).
Proof. destruct (raws t l); cbn [bind]; [apply pc_write|apply pc_err|apply pc_undef]. Qed.
Lemma pc_seq (f : forall S : ostream, val -> ost S -> res (ost S)) l : (forall x, pieces (fun S => f S x)) -> pieces (fun S s => write_seq (f S) l s).
Proof.
  intros H. induction l as [|x l IH]; cbn [write_seq]; [apply pc_nil|]. apply (pc_app (fun S => f S x) (fun S => write_seq (f S) l)); auto.
Qed.
Lemma pc_pairs (f g : forall S : ostream, val -> ost S -> res (ost S)) l : (forall x, pieces (fun S => f S x)) -> (forall x, pieces (fun S => g S x)) ->
  pieces (fun S s => write_pairs (f S) (g S) l s).
Proof.
  intros Hf Hg. induction l as [|x l IH]; cbn [write_pairs]; [apply pc_nil|].
  destruct x as [| | | |[|a [|b [|]]]| |]; try apply pc_undef.
  apply (pc_app (fun S => f S a) (fun S s => let* s := g S b s in write_pairs (f S) (g S) l s)); auto.
  apply (pc_app (fun S => g S b) (fun S => write_pairs (f S) (g S) l)); auto.
Qed.
Lemma pc_tuple (h : forall S : ostream, ty -> val -> ost S -> res (ost S)) ts : Forall (fun t => forall x, pieces (fun S => h S t x)) ts ->
  forall l, pieces (fun S s => write_tuple (map (h S) ts) l s).
Proof.
  induction 1 as [|t ts Ht _ IH]; intros l; destruct l as [|x l]; cbn [map write_tuple]; [apply pc_nil|apply pc_undef|apply pc_undef|].
  apply (pc_app (fun S => h S t x) (fun S => write_tuple (map (h S) ts) l)); auto.
Qed.
Lemma pc_nth (h : forall S : ostream, ty -> val -> ost S -> res (ost S)) ts x : Forall (fun t => forall x, pieces (fun S => h S t x)) ts ->
  forall i, pieces (fun S s => match nthz (map (h S) ts) i with Some f => f x s | None => Undef "ill-typed value" end).
Proof.
  induction 1 as [|t ts Ht _ IH]; intros i; cbn [map nthz]; [apply pc_undef|]. destruct (i =? 0); [apply Ht|apply IH].
Qed.

Lemma pc_to_bin_with (ref : forall S : ostream, nat -> val -> ost S -> res (ost S)) : (forall n v, pieces (fun S => ref S n v)) ->
  forall t v, pieces (fun S s => to_bin_with S (ref S) t v s).
Proof.
  intros Href t. induction t as
    [sg n| |n| | | | |t IH|t IH|t IH|k t IHk IHt|n t IH|n t IH|t IH|ts IH|ts IH|t IH|k t IH|n] using ty_ind';
  intros v; cbn [to_bin_with];
  try (destruct v; try apply pc_undef; try apply pc_write; try apply pc_varuint; try apply pc_varint; fail).
  - destruct v; try apply pc_undef. apply (pc_app (fun S => varuint32_to_bin S _) (fun S s => owrite S s _)); [apply pc_varuint|apply pc_write].
  - destruct v; try apply pc_undef. apply (pc_app (fun S => varuint32_to_bin S _) (fun S s => owrite S s _)); [apply pc_varuint|apply pc_write].
  - destruct v; try apply pc_undef. destruct (bitwise_size t).
    + apply (pc_app (fun S => varuint32_to_bin S _) (fun S s => let* b := raws t _ in owrite S s b)); [apply pc_varuint|apply pc_raws].
    + apply (pc_app (fun S => varuint32_to_bin S _) (fun S s => write_seq (to_bin_with S (ref S) t) _ s)); [apply pc_varuint|]. now apply (pc_seq (fun S => to_bin_with S (ref S) t)).
  - destruct v; try apply pc_undef. apply (pc_app (fun S => varuint32_to_bin S _) (fun S s => write_seq (to_bin_with S (ref S) t) _ s)); [apply pc_varuint|]. now apply (pc_seq (fun S => to_bin_with S (ref S) t)).
  - destruct v; try apply pc_undef. apply (pc_app (fun S => varuint32_to_bin S _) (fun S s => write_seq (to_bin_with S (ref S) t) _ s)); [apply pc_varuint|]. now apply (pc_seq (fun S => to_bin_with S (ref S) t)).
  - destruct v; try apply pc_undef. apply (pc_app (fun S => varuint32_to_bin S _) (fun S s => write_pairs (to_bin_with S (ref S) k) (to_bin_with S (ref S) t) _ s)); [apply pc_varuint|].
    now apply (pc_pairs (fun S => to_bin_with S (ref S) k) (fun S => to_bin_with S (ref S) t)).
  - destruct v; try apply pc_undef. now apply (pc_seq (fun S => to_bin_with S (ref S) t)).
  - destruct v; try apply pc_undef. destruct (bitwise_size t).
    + apply (pc_app (fun S => varuint32_to_bin S _) (fun S s => let* b := raws t _ in owrite S s b)); [apply pc_varuint|apply pc_raws].
    + apply (pc_app (fun S => varuint32_to_bin S _) (fun S s => write_seq (to_bin_with S (ref S) t) _ s)); [apply pc_varuint|]. now apply (pc_seq (fun S => to_bin_with S (ref S) t)).
  - destruct v as [| | | | |[x|]|]; try apply pc_undef; [|apply pc_write].
    apply (pc_app (fun S s => owrite S s [1]) (fun S => to_bin_with S (ref S) t x)); [apply pc_write|apply IH].
  - destruct v; try apply pc_undef.
    apply (pc_app (fun S => varuint32_to_bin S i) (fun S s => match nthz (map (to_bin_with S (ref S)) ts) i with Some f => f v s | None => Undef "ill-typed value" end)); [apply pc_varuint|].
    now apply (pc_nth (fun S => to_bin_with S (ref S))).
  - destruct v; try apply pc_undef. now apply (pc_tuple (fun S => to_bin_with S (ref S))).
  - destruct v; apply IH.
  - destruct v; apply IH.
  - destruct v; apply Href.
Qed.
Lemma pc_to_bin env fuel t v : pieces (fun S s => to_bin S env fuel t v s).
Proof.
  revert t v. induction fuel as [|fuel IH]; intros t v.
  - apply (pc_ext (fun S s => to_bin_with S (fun _ _ _ => Undef "stack") t v s)); [|intros; reflexivity].
    apply (pc_to_bin_with (fun S _ _ _ => Undef "stack")). intros. apply pc_undef.
  - apply (pc_ext (fun S s => to_bin_with S (fun n v s => to_bin S env fuel (env n) v s) t v s)); [|intros; reflexivity].
    apply (pc_to_bin_with (fun S n v s => to_bin S env fuel (env n) v s)). intros. apply IH.
Qed.

(** *** to_key *)
Lemma pc_key_rest i obj : pieces (fun S s => key_varuint32_rest S i obj s).
Proof.
  induction i as [|i IH]; cbn [key_varuint32_rest]; [apply pc_nil|].
  apply (pc_app (fun S s => owrite S s _) (fun S s => key_varuint32_rest S i obj s)); [apply pc_write|apply IH].
Qed.
Lemma pc_key_varuint32 obj : pieces (fun S s => to_key_varuint32 S obj s).
Proof.
  unfold to_key_varuint32. apply (pc_app (fun S s => owrite S s _) (fun S s => key_varuint32_rest S _ obj s)); [apply pc_write|apply pc_key_rest].
Qed.
Lemma pc_key_chars b : pieces (fun S s => key_chars S b s).
Proof.
  induction b as [|c b IH]; cbn [key_chars]; [apply pc_nil|].
  apply (pc_app (fun S s => owrite S s [c]) (fun S s => let* s := (if c =? 0 then owrite S s [1] else Ok s) in key_chars S b s)); [apply pc_write|].
  apply (pc_app (fun S s => if c =? 0 then owrite S s [1] else Ok s) (fun S s => key_chars S b s)); [|apply IH]. destruct (c =? 0); [apply pc_write|apply pc_nil].
Qed.
Lemma pc_key_optional t (f : forall S : ostream, val -> ost S -> res (ost S)) o : (forall x, pieces (fun S => f S x)) -> pieces (fun S s => to_key_optional S t f o s).
Proof.
  intros H. unfold to_key_optional. destruct (one_byte t); destruct o as [x|]; try apply pc_write.
  - destruct (f fixed_buf_stream x ([], 1%nat)) as [tmp|e|w]; cbn [bind]; [|apply pc_err|apply pc_undef]. cbv zeta.
    apply (pc_app (fun S s => owrite S s _) (fun S s => if nth 0 (fst tmp) 0 =? 0 then owrite S s [1] else Ok s)); [apply pc_write|]. destruct (nth 0 (fst tmp) 0 =? 0); [apply pc_write|apply pc_nil].
  - apply (pc_app (fun S s => owrite S s [1]) (fun S => f S x)); [apply pc_write|apply H].
Qed.
Lemma pc_to_key_with (ref : forall S : ostream, nat -> val -> ost S -> res (ost S)) : (forall n v, pieces (fun S => ref S n v)) ->
  forall t v, pieces (fun S s => to_key_with ref t S v s).
Proof.
  intros Href t. induction t as
    [sg n| |n| | | | |t IH|t IH|t IH|k t IHk IHt|n t IH|n t IH|t IH|ts IH|ts IH|t IH|k t IH|n] using ty_ind';
  intros v; cbn [to_key_with]; try apply pc_undef;
  try (destruct v; try apply pc_undef; try apply pc_write; try apply pc_key_varuint32; fail).
  - destruct v; try apply pc_undef. apply (pc_app (fun S s => key_chars S _ s) (fun S s => owrite S s _)); [apply pc_key_chars|apply pc_write].
  - destruct v as [| | | |l| |]; try apply pc_undef.
    apply (pc_app (fun S s => write_seq (fun x => to_key_optional S t (to_key_with ref t) (Some x)) l s) (fun S s => to_key_optional S t (to_key_with ref t) None s)).
    + apply (pc_seq (fun S x => to_key_optional S t (to_key_with ref t) (Some x))). intros x. now apply pc_key_optional.
    + now apply pc_key_optional.
  - destruct v as [| | | |l| |]; try apply pc_undef.
    apply (pc_app (fun S s => write_seq (fun x => to_key_optional S t (to_key_with ref t) (Some x)) l s) (fun S s => to_key_optional S t (to_key_with ref t) None s)).
    + apply (pc_seq (fun S x => to_key_optional S t (to_key_with ref t) (Some x))). intros x. now apply pc_key_optional.
    + now apply pc_key_optional.
  - destruct v as [| | | |l| |]; try apply pc_undef.
    apply (pc_app (fun S s => write_seq (fun x => to_key_optional S t (to_key_with ref t) (Some x)) l s) (fun S s => to_key_optional S t (to_key_with ref t) None s)).
    + apply (pc_seq (fun S x => to_key_optional S t (to_key_with ref t) (Some x))). intros x. now apply pc_key_optional.
    + now apply pc_key_optional.
  - destruct v as [| | | |l| |]; try apply pc_undef.
    refine (pc_app (fun S s => write_seq _ l s) (fun S s => owrite S s [0]) _ (pc_write _)).
    apply (pc_seq (fun S x s => match x with
                     | VList [a; b] => let* s := owrite S s [1] in let* s := to_key_with ref k S a s in to_key_with ref t S b s
                     | _ => Undef "ill-typed value"
                     end)).
    intros x. destruct x as [| | | |[|a [|b [|]]]| |]; try apply pc_undef.
    apply (pc_app (fun S s => owrite S s [1]) (fun S s => let* s := to_key_with ref k S a s in to_key_with ref t S b s)); [apply pc_write|].
    apply (pc_app (fun S s => to_key_with ref k S a s) (fun S s => to_key_with ref t S b s)); auto.
  - destruct v as [| | | |l| |]; try apply pc_undef. now apply (pc_seq (fun S => to_key_with ref t S)).
  - destruct v as [| | | | |o|]; try apply pc_undef. now apply pc_key_optional.
  - destruct v as [| | | | | |i x]; try apply pc_undef.
    apply (pc_app (fun S s => to_key_varuint32 S i s) (fun S s => match nthz (map (fun t => to_key_with ref t S) ts) i with Some f => f x s | None => Undef "ill-typed value" end)); [apply pc_key_varuint32|].
    now apply (pc_nth (fun S t => to_key_with ref t S)).
  - destruct v as [| | | |l| |]; try apply pc_undef. now apply (pc_tuple (fun S t => to_key_with ref t S)).
  - destruct v; apply IH.
  - destruct v; apply Href.
Qed.
Lemma pc_to_key env fuel t v : pieces (fun S s => to_key env fuel t S v s).
Proof.
  revert t v. induction fuel as [|fuel IH]; intros t v.
  - apply (pc_to_key_with (fun S _ _ _ => Undef "stack")). intros. apply pc_undef.
  - apply (pc_to_key_with (fun S n v s => to_key env fuel (env n) S v s)). intros. apply IH.
Qed.

(** ** Memory *)
Lemma store_in m a l i : (i < List.length l)%nat -> nth_error l i = Some (store m a l (a + Z.of_nat i)).
Proof.
  intros H. unfold store. destruct (Z.leb_spec a (a + Z.of_nat i)); [|lia]. destruct (Z.ltb_spec (a + Z.of_nat i) (a + Z.of_nat (List.length l))); [|lia].
  cbn [andb]. replace (a + Z.of_nat i - a) with (Z.of_nat i) by lia. rewrite Nat2Z.id. now apply nth_error_nth'.
Qed.
Lemma store_out m a l x : x < a \/ a + len l <= x -> store m a l x = m x.
Proof.
  unfold len. intros H. unfold store. destruct (Z.leb_spec a x); [|reflexivity]. destruct (Z.ltb_spec x (a + Z.of_nat (List.length l))); [lia|reflexivity].
Qed.
Lemma holds_nil m a : holds m m a [].
Proof. split; [cbn; lia|reflexivity]. Qed.
Lemma len_app a b : len (a ++ b) = len a + len b.
Proof. unfold len. rewrite app_length. lia. Qed.
Lemma len_nonneg l : 0 <= len l.
Proof. unfold len. lia. Qed.
Lemma holds_store m m' a p l : holds m m' a p -> holds m (store m' (a + len p) l) a (p ++ l).
Proof.
  intros [H1 H2]. split.
  - intros i Hi. rewrite app_length in Hi. destruct (Nat.lt_ge_cases i (List.length p)) as [L|L].
    + rewrite nth_error_app1 by exact L. rewrite store_out by (unfold len; lia). now apply H1.
    + rewrite nth_error_app2 by exact L. replace (a + Z.of_nat i) with (a + len p + Z.of_nat (i - List.length p)) by (unfold len; lia). apply store_in. lia.
  - intros x Hx. rewrite len_app in Hx. pose proof (len_nonneg p). pose proof (len_nonneg l). rewrite store_out by lia. apply H2. lia.
Qed.

Lemma write_op_fits o b : 0 <= opos b -> opos b <= oend b < 2 ^ 64 -> opos b + len (op_bytes o) < 2 ^ 64 ->
  write_op o b = if len (op_bytes o) <=? oend b - opos b then (Ok tt, Buf (store (mem b) (opos b) (op_bytes o)) (opos b + len (op_bytes o)) (oend b)) else (Err E_overrun, b).
Proof.
  intros H0 He Hl. destruct o as [c|l]; cbn [write_op op_bytes] in *.
  - unfold write_char, len in *. cbn [List.length] in *. change (Z.of_nat 1) with 1 in *.
    destruct (Z.ltb_spec (opos b) (oend b)), (Z.leb_spec 1 (oend b - opos b)); try lia; [|reflexivity].
    rewrite Z.mod_small by lia. reflexivity.
  - unfold write_block, len in *. rewrite Z.mod_small by lia.
    destruct (Z.leb_spec (opos b + Z.of_nat (List.length l)) (oend b)), (Z.leb_spec (Z.of_nat (List.length l)) (oend b - opos b)); try lia; reflexivity.
Qed.
(** The state during a series of writes: [p] has been written from [a]. *)
Lemma write_ops_spec l : forall m a b p, holds m (mem b) a p -> opos b = a + len p -> 0 <= a -> opos b <= oend b < 2 ^ 64 ->
  (forall o, In o l -> oend b + len (op_bytes o) < 2 ^ 64) ->
  exists b', write_ops l b = (map (fun x => outcome (fst x)) (fitting (oend b - opos b) l), b') /\ oend b' = oend b /\
    holds m (mem b') a (p ++ concat (map snd (fitting (oend b - opos b) l))) /\
    opos b' = a + len (p ++ concat (map snd (fitting (oend b - opos b) l))) /\ opos b' <= oend b.
Proof.
  induction l as [|o l IH]; intros m a b p H P A0 E L; cbn [write_ops fitting map concat].
  { exists b. rewrite app_nil_r. repeat split; try apply H; try assumption; lia. }
  pose proof (len_nonneg p) as Np. pose proof (len_nonneg (op_bytes o)) as No. pose proof (L o (or_introl eq_refl)) as Lo.
  rewrite write_op_fits by lia. destruct (Z.leb_spec (len (op_bytes o)) (oend b - opos b)) as [F|F].
  - destruct (IH m a (Buf (store (mem b) (opos b) (op_bytes o)) (opos b + len (op_bytes o)) (oend b)) (p ++ op_bytes o)) as (b' & W & E' & H' & P' & B').
    + rewrite P. cbn [mem]. now apply holds_store.
    + cbn [opos]. rewrite len_app. lia.
    + exact A0.
    + cbn [opos oend]. lia.
    + cbn [oend]. intros o' Ho. apply L. now right.
    + cbn [opos oend] in *. replace (oend b - (opos b + len (op_bytes o))) with (oend b - opos b - len (op_bytes o)) in * by lia.
      exists b'. rewrite W. cbn [map concat fst snd outcome]. rewrite app_assoc. auto.
  - destruct (IH m a b p H P A0 E) as (b' & W & E' & H' & P' & B'); [intros o' Ho; apply L; now right|].
    exists b'. rewrite W. cbn [map concat fst snd outcome app]. auto.
Qed.

(** A writer template on a buffer. *)
Lemma wlist_stopped ws b e : wlist mem_stream ws (b, Some e) = Ok (b, Some e).
Proof. induction ws as [|w ws IH]; [reflexivity|]. exact IH. Qed.
Lemma wlist_mem ws : forall m a b p, holds m (mem b) a p -> opos b = a + len p -> 0 <= a -> opos b <= oend b < 2 ^ 64 ->
  oend b + len (concat ws) < 2 ^ 64 ->
  exists b' x q r, wlist mem_stream ws (b, None) = Ok (b', x) /\ concat ws = q ++ r /\ oend b' = oend b /\
    holds m (mem b') a (p ++ q) /\ opos b' = a + len (p ++ q) /\ opos b' <= oend b /\
    (x = None /\ r = [] \/ x = Some E_overrun /\ oend b - opos b < len (concat ws)).
Proof.
  induction ws as [|w ws IH]; intros m a b p H P A0 E L.
  { exists b, None, [], []. rewrite !app_nil_r. repeat split; try apply H; try assumption; try lia. now left. }
  cbn [concat] in *. rewrite len_app in L. pose proof (len_nonneg w). pose proof (len_nonneg (concat ws)). pose proof (len_nonneg p).
  change (wlist mem_stream (w :: ws) (b, None)) with (bind (owrite mem_stream (b, None) w) (wlist mem_stream ws)). cbn [owrite mem_stream].
  change (write_block w b) with (write_op (WBlock w) b). rewrite write_op_fits by (cbn [op_bytes]; lia). cbn [op_bytes].
  destruct (Z.leb_spec (len w) (oend b - opos b)) as [F|F]; cbn [bind].
  - destruct (IH m a (Buf (store (mem b) (opos b) w) (opos b + len w) (oend b)) (p ++ w)) as (b' & x & q & r & W & C & E' & H' & P' & B' & X).
    + rewrite P. cbn [mem]. now apply holds_store.
    + cbn [opos]. rewrite len_app. lia.
    + exact A0.
    + cbn [opos oend]. lia.
    + cbn [oend]. lia.
    + cbn [opos oend] in *. exists b', x, (w ++ q), r. rewrite C, !app_assoc in *. split; [exact W|]. split; [reflexivity|]. repeat split; try apply H'; try assumption.
      destruct X as [X|[-> X]]; [now left|right]. split; [reflexivity|]. rewrite !len_app. rewrite len_app in X. lia.
  - exists b, (Some E_overrun), [], (w ++ concat ws). rewrite wlist_stopped, app_nil_r. repeat split; try apply H; try assumption; try lia.
    right. split; [reflexivity|]. rewrite len_app. lia.
Qed.

Lemma load_is m l : forall a, (forall i, (i < List.length l)%nat -> nth_error l i = Some (m (a + Z.of_nat i))) -> load m a (List.length l) = l.
Proof.
  induction l as [|c l IH]; intros a H; cbn [List.length load]; [reflexivity|]. f_equal.
  - specialize (H 0%nat ltac:(cbn; lia)). cbn [nth_error] in H. change (Z.of_nat 0) with 0 in H. rewrite Z.add_0_r in H. congruence.
  - apply IH. intros i Hi. specialize (H (S i) ltac:(cbn [List.length]; lia)). cbn [nth_error] in H. rewrite H. do 2 f_equal. lia.
Qed.
Lemma wlist_size ws : forall n, wlist size_stream ws n = Ok (n + List.length (concat ws))%nat.
Proof.
  induction ws as [|w ws IH]; intros n; [cbn; f_equal; lia|].
  change (wlist size_stream (w :: ws) n) with (wlist size_stream ws (n + List.length w)%nat). rewrite IH. cbn [concat]. rewrite app_length. f_equal. lia.
Qed.

(** Two passes over a vector. *)
Lemma two_passes_spec f old : pieces f ->
  (forall bin, f vector_stream [] = Ok bin -> len old + len bin + len bin < 2 ^ 64 -> two_passes f old = (Ok tt, old ++ bin)) /\
  (forall err, f vector_stream [] = Err err -> two_passes f old = (Err err, old)).
Proof.
  intros (ws & en & P). unfold two_passes. rewrite !P, wlist_vector, wlist_size. cbn [bind app Nat.add]. split.
  - intros bin H L. destruct en; cbn [finish] in *; try discriminate H. injection H as H.
    rewrite H in *. cbv zeta. set (m := fun x => nth (Z.to_nat x) (old ++ repeat 0 (List.length bin)) 0).
    pose proof (len_nonneg old). pose proof (len_nonneg bin).
    destruct (wlist_mem ws m (len old) (Buf m (len old) (len old + len bin)) [] (holds_nil m _)) as ([m' p' e'] & x & q & r & W & C & E' & Hq & P' & B & X); cbn [opos oend mem app] in *; rewrite ?H in *; try lia.
    { unfold len. cbn. lia. }
    subst e' p'. change (Z.of_nat (List.length old)) with (len old). change (Z.of_nat (List.length bin)) with (len bin). rewrite P. fold m. rewrite W. cbn [bind finish].
    destruct X as [[-> ->]|[-> X]]; [|lia]. rewrite app_nil_r in C. subst q. cbn [opos oend mem]. rewrite Z.eqb_refl. f_equal.
    replace (List.length (old ++ repeat 0 (List.length bin))) with (List.length (old ++ bin)) by (rewrite !app_length, repeat_length; reflexivity).
    apply load_is. intros i Hi. rewrite Z.add_0_l. destruct Hq as [G1 G2]. destruct (Nat.lt_ge_cases i (List.length old)) as [Lo|Lo].
    + rewrite nth_error_app1 by exact Lo. rewrite G2 by (unfold len; lia). unfold m. rewrite Nat2Z.id, app_nth1 by exact Lo. now apply nth_error_nth'.
    + rewrite nth_error_app2 by exact Lo. rewrite app_length in Hi. rewrite G1 by lia. do 2 f_equal. unfold len. lia.
  - intros err H. destruct en; cbn [finish] in *; try discriminate H. injection H as ->. reflexivity.
Qed.
(** A template on a buffer. *)
Lemma in_memory f bin m a e : pieces f -> f vector_stream [] = Ok bin -> 0 <= a <= e -> e + len bin < 2 ^ 64 ->
  exists m' x written rest, f mem_stream (Buf m a e, None) = Ok (Buf m' (a + len written) e, x) /\
    bin = written ++ rest /\ holds m m' a written /\ a + len written <= e /\
    (len bin <= e - a -> x = None /\ rest = []) /\ (e - a < len bin -> x = Some E_overrun).
Proof.
  intros (ws & en & P) H A0 L.
  rewrite P, wlist_vector in H. cbn [bind app] in H. destruct en; cbn [finish] in H; try discriminate H. injection H as H. subst bin.
  pose proof (len_nonneg (concat ws)).
  destruct (wlist_mem ws m a (Buf m a e) [] (holds_nil m a)) as ([m' p' e'] & x & q & r & W & C & E' & Hq & P' & B & X); cbn [opos oend mem app] in *; try lia; try assumption.
  { unfold len. cbn. lia. }
  subst e' p'. exists m', x, q, r. split; [rewrite P, W; reflexivity|]. split; [exact C|]. split; [exact Hq|]. split; [exact B|].
  assert (Lq : len (concat ws) = len q + len r) by (rewrite C; apply len_app).
  split; intros K; destruct X as [[-> ->]|[-> X]]; auto; try lia.
  unfold len in *. cbn in Lq. lia.
Qed.

(** ** Reading *)
Lemma load_length m n : forall a, List.length (load m a n) = n.
Proof. induction n as [|n IH]; intros a; cbn [load List.length]; [reflexivity|]. now rewrite IH. Qed.
Lemma load_part m n : forall a k, (k <= n)%nat -> forall j, (j + k <= n)%nat -> firstn k (skipn j (load m a n)) = load m (a + Z.of_nat j) k.
Proof.
  induction n as [|n IH]; intros a k Hk j Hj.
  { assert (k = 0%nat) by lia. subst k. reflexivity. }
  destruct j as [|j].
  - cbn [skipn]. change (Z.of_nat 0) with 0. rewrite Z.add_0_r. destruct k as [|k]; [reflexivity|]. cbn [load firstn]. f_equal.
    specialize (IH (a + 1) k ltac:(lia) 0%nat ltac:(lia)). cbn [skipn] in IH. change (Z.of_nat 0) with 0 in IH. rewrite Z.add_0_r in IH. exact IH.
  - cbn [load skipn]. rewrite IH by lia. f_equal. lia.
Qed.
Lemma read_op_spec m start e o used : 0 <= start -> 0 <= used -> start + used <= e < 2 ^ 64 -> 0 <= rop_size o < 2 ^ 64 ->
  let data := load m start (Z.to_nat (e - start)) in
  let (r, u) := read_answer start data used o in
  read_op m o (IBuf (start + used) e) = (r, IBuf (start + u) e) /\ used <= u <= e - start.
Proof.
  intros S0 U0 B N data.
  assert (Ld : len data = e - start) by (unfold data, len; rewrite load_length; lia).
  assert (R : remaining (IBuf (start + used) e) = e - start - used) by (unfold remaining; cbn [ipos iend]; rewrite Z.mod_small by lia; lia).
  unfold read_answer, read_op. rewrite R, Ld. cbn [ipos iend].
  destruct o as [|n| |n|n|n]; cbn [rop_size] in N; cbn [fst snd].
  - split; [reflexivity|lia].
  - destruct (Z.leb_spec n (e - start - used)), (Z.leb_spec (used + n) (e - start)); try lia; (split; [|lia]); [|reflexivity]. rewrite Z.add_0_r. reflexivity.
  - split; [reflexivity|lia].
  - destruct (Z.leb_spec n (e - start - used)), (Z.leb_spec (used + n) (e - start)); try lia; (split; [|lia]); [|reflexivity].
    rewrite Z.mod_small by lia. unfold data. rewrite load_part by lia. rewrite Z2Nat.id by lia. rewrite Z.add_assoc. reflexivity.
  - destruct (Z.leb_spec n (e - start - used)), (Z.leb_spec (used + n) (e - start)); try lia; (split; [|lia]); [|reflexivity]. rewrite Z.mod_small by lia. rewrite Z.add_assoc. reflexivity.
  - destruct (Z.leb_spec n (e - start - used)), (Z.leb_spec (used + n) (e - start)); try lia; (split; [|lia]); [|reflexivity]. rewrite Z.mod_small by lia. rewrite Z.add_assoc. reflexivity.
Qed.
Lemma read_ops_spec m start e l : 0 <= start -> (forall o, In o l -> 0 <= rop_size o < 2 ^ 64) -> forall used, 0 <= used -> start + used <= e < 2 ^ 64 ->
  let (rs, u) := read_answers start (load m start (Z.to_nat (e - start))) used l in
  read_ops m l (IBuf (start + used) e) = (rs, IBuf (start + u) e) /\ used <= u <= e - start.
Proof.
  intros S0. induction l as [|o l IH]; intros N used U0 B; cbn [read_answers read_ops]; [split; [reflexivity|lia]|].
  pose proof (read_op_spec m start e o used S0 U0 B (N o (or_introl eq_refl))) as H. cbv zeta in H.
  destruct (read_answer start (load m start (Z.to_nat (e - start))) used o) as [r u]. destruct H as [-> Hu].
  specialize (IH (fun o' Ho => N o' (or_intror Ho)) u ltac:(lia) ltac:(lia)).
  destruct (read_answers start (load m start (Z.to_nat (e - start))) u l) as [rs u']. destruct IH as [-> Hu']. split; [reflexivity|lia].
Qed.
