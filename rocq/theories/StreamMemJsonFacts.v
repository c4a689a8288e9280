From Verif Require Import Base Stream StreamFacts TypedBin ToKey Abi AbiScalar TypedJson StreamMem StreamMemSpec StreamMemFacts StreamMemJson.
From Verif Require TypedJsonFacts.

Section Pieces.
  Context (O : ostream -> jout) (mk : forall S, ost S -> nat -> jost (O S)).
  (** As [pieces], for writers with an indentation. *)
  Definition jpieces (f : forall S, jost (O S) -> res (jost (O S))) : Prop :=
    forall n, exists ws en n', forall S s, f S (mk S s n) = bind (wlist S ws s) (fun s => bind (finish S en s) (fun s => Ok (mk S s n'))).
  Context (Hw : forall b, jpieces (fun S s => jwrite (O S) s b)) (Hi : jpieces (fun S s => Ok (jinc (O S) s)))
    (Hd : jpieces (fun S => jdec (O S))) (Hn : jpieces (fun S => jnl (O S))) (Hc : jpieces (fun S => jcolon (O S))).
  Context (E : float_lib).

  Lemma jp_nil : jpieces (fun S s => Ok s).
  Proof. intros n. exists [], Fine, n. reflexivity. Qed.
  Lemma jp_err e : jpieces (fun S s => Err e).
  Proof. intros n. exists [], (Throws e), n. reflexivity. Qed.
  Lemma jp_undef w : jpieces (fun S s => Undef w).
  Proof. intros n. exists [], (Bad w), n. reflexivity. Qed.
  Lemma jp_app f g : jpieces f -> jpieces g -> jpieces (fun S s => let* s := f S s in g S s).
  Proof.
    intros F G n. destruct (F n) as (wa & ea & n1 & Ha). destruct ea.
    - destruct (G n1) as (wb & eb & n2 & Hb). exists (wa ++ wb), eb, n2. intros S s. rewrite Ha, wlist_app, !bind_bind. destruct (wlist S wa s); cbn [bind finish]; auto.
    - exists wa, (Throws e), n. intros S s. rewrite Ha. destruct (wlist S wa s); reflexivity.
    - exists wa, (Bad w), n. intros S s. rewrite Ha. destruct (wlist S wa s); reflexivity.
  Qed.
  Lemma jp_res (r : res bytes) : jpieces (fun S s => let* x := r in jwrite (O S) s x).
  Proof. destruct r; cbn [bind]; [apply Hw|apply jp_err|apply jp_undef]. Qed.

  Lemma jp_pre first : jpieces (fun S s => pre (O S) first s).
  Proof.
    unfold pre. destruct first.
    - apply (jp_app (fun S s => Ok (jinc (O S) s)) (fun S => jnl (O S))); auto.
    - apply (jp_app (fun S s => jwrite (O S) s [44]) (fun S => jnl (O S))); auto.
  Qed.
  Lemma jp_post first : jpieces (fun S s => post (O S) first s).
  Proof. unfold post. destruct first; [apply jp_nil|]. apply (jp_app (fun S => jdec (O S)) (fun S => jnl (O S))); auto. Qed.
  Lemma jp_items (f : forall S, val -> jost (O S) -> res (jost (O S))) : (forall x, jpieces (fun S => f S x)) ->
    forall l first, jpieces (fun S s => write_items (O S) (map (f S) l) first s).
  Proof.
    intros H l. induction l as [|x l IH]; intros first; cbn [map write_items]; [apply jp_post|].
    apply (jp_app (fun S => pre (O S) first) (fun S s => let* s := f S x s in write_items (O S) (map (f S) l) false s)); [apply jp_pre|].
    apply (jp_app (fun S => f S x) (fun S => write_items (O S) (map (f S) l) false)); auto.
  Qed.
  Lemma jp_member n f : jpieces f -> jpieces (fun S s => write_member (O S) n (f S) s).
  Proof.
    intros H. unfold write_member.
    apply (jp_app (fun S s => jwrite (O S) s (Json.to_json_string n)) (fun S s => let* s := jcolon (O S) s in f S s)); [apply Hw|].
    now apply (jp_app (fun S => jcolon (O S)) f).
  Qed.

  Section Ref.
    Context (ref : forall S, nat -> val -> jost (O S) -> res (jost (O S))).
    Hypothesis Href : forall n v, jpieces (fun S => ref S n v).
    Let W (t : jty) := forall v, jpieces (fun S s => to_json_with (O S) E (ref S) t v s).

    Lemma jp_go fs : Forall (fun f => W (snd f)) fs -> forall l first, jpieces (fun S s => TypedJsonFacts.go_write (O S) E (ref S) fs l first s).
    Proof.
      induction 1 as [|f fs Hf _ IH]; intros l first; destruct l as [|x l]; cbn [TypedJsonFacts.go_write];
        [apply jp_post|apply jp_undef|apply jp_undef|].
      apply (jp_app (fun S => pre (O S) first) (fun S s => let* s := write_member (O S) (fst f) (to_json_with (O S) E (ref S) (snd f) x) s in
        TypedJsonFacts.go_write (O S) E (ref S) fs l false s)); [apply jp_pre|].
      apply (jp_app (fun S => write_member (O S) (fst f) (to_json_with (O S) E (ref S) (snd f) x)) (fun S => TypedJsonFacts.go_write (O S) E (ref S) fs l false)); auto.
      apply jp_member. apply Hf.
    Qed.
    Lemma jp_with t : W t.
    Proof.
      induction t as [b|t IH|t IH|ts IH|nm fs IH|a b IHa IHb|t IH| |t IH|names|k] using TypedJsonFacts.jty_ind'; intros v.
      - cbn [to_json_with]. apply jp_res.
      - destruct v as [| | | |l| |]; cbn [to_json_with]; try apply jp_undef.
        apply (jp_app (fun S s => jwrite (O S) s [91]) (fun S s => let* s := write_items (O S) (map (fun x => to_json_with (O S) E (ref S) t x) l) true s in jwrite (O S) s [93])); [apply Hw|].
        apply (jp_app (fun S => write_items (O S) (map (fun x => to_json_with (O S) E (ref S) t x) l) true) (fun S s => jwrite (O S) s [93])); [|apply Hw].
        apply (jp_items (fun S x => to_json_with (O S) E (ref S) t x)). exact IH.
      - destruct v as [| | | | |[x|]|]; cbn [to_json_with]; try apply jp_undef; [apply IH|apply Hw].
      - destruct v as [| | | | | |i x]; cbn [to_json_with]; try apply jp_undef.
        revert i. induction IH as [|t ts Ht _ IHts]; intros i; cbn [map nthz]; [apply jp_undef|].
        destruct (i =? 0); [|apply IHts].
        apply (jp_app (fun S s => jwrite (O S) s [91]) (fun S s => let* s := jnl (O S) (jinc (O S) s) in
          let* s := jwrite (O S) s (Json.to_json_string (type_name t)) in let* s := jwrite (O S) s [44] in let* s := jnl (O S) s in
          let* s := to_json_with (O S) E (ref S) t x s in let* s := jdec (O S) s in let* s := jnl (O S) s in jwrite (O S) s [93])); [apply Hw|].
        apply (jp_app (fun S s => let* s := Ok (jinc (O S) s) in jnl (O S) s) (fun S s => 
          let* s := jwrite (O S) s (Json.to_json_string (type_name t)) in let* s := jwrite (O S) s [44] in let* s := jnl (O S) s in
          let* s := to_json_with (O S) E (ref S) t x s in let* s := jdec (O S) s in let* s := jnl (O S) s in jwrite (O S) s [93]));
          [apply (jp_app (fun S s => Ok (jinc (O S) s)) (fun S => jnl (O S))); auto|].
        apply (jp_app (fun S s => jwrite (O S) s (Json.to_json_string (type_name t))) (fun S s => let* s := jwrite (O S) s [44] in let* s := jnl (O S) s in
          let* s := to_json_with (O S) E (ref S) t x s in let* s := jdec (O S) s in let* s := jnl (O S) s in jwrite (O S) s [93])); [apply Hw|].
        apply (jp_app (fun S s => jwrite (O S) s [44]) (fun S s => let* s := jnl (O S) s in
          let* s := to_json_with (O S) E (ref S) t x s in let* s := jdec (O S) s in let* s := jnl (O S) s in jwrite (O S) s [93])); [apply Hw|].
        apply (jp_app (fun S => jnl (O S)) (fun S s => let* s := to_json_with (O S) E (ref S) t x s in let* s := jdec (O S) s in let* s := jnl (O S) s in jwrite (O S) s [93])); [apply Hn|].
        apply (jp_app (fun S => to_json_with (O S) E (ref S) t x) (fun S s => let* s := jdec (O S) s in let* s := jnl (O S) s in jwrite (O S) s [93])); [apply Ht|].
        apply (jp_app (fun S => jdec (O S)) (fun S s => let* s := jnl (O S) s in jwrite (O S) s [93])); [apply Hd|].
        apply (jp_app (fun S => jnl (O S)) (fun S s => jwrite (O S) s [93])); [apply Hn|apply Hw].
      - destruct v as [| | | |l| |]; try (cbn [to_json_with]; apply jp_undef).
        change (jpieces (fun S s => let* s := jwrite (O S) s [123] in let* s := TypedJsonFacts.go_write (O S) E (ref S) fs l true s in jwrite (O S) s [125])).
        apply (jp_app (fun S s => jwrite (O S) s [123]) (fun S s => let* s := TypedJsonFacts.go_write (O S) E (ref S) fs l true s in jwrite (O S) s [125])); [apply Hw|].
        apply (jp_app (fun S => TypedJsonFacts.go_write (O S) E (ref S) fs l true) (fun S s => jwrite (O S) s [125])); [|apply Hw].
        now apply jp_go.
      - cbn [to_json_with]. apply jp_undef.
      - cbn [to_json_with]. apply jp_undef.
      - destruct v; cbn [to_json_with]; try apply jp_undef. apply Hw.
      - cbn [to_json_with]. apply jp_undef.
      - destruct v as [z| | | | | |]; cbn [to_json_with]; try apply jp_undef. destruct (nthz names z); [apply Hw|apply jp_err].
      - cbn [to_json_with]. apply Href.
    Qed.
  End Ref.
  Lemma jp_to_json env fuel : forall t v, jpieces (fun S s => to_json (O S) E env fuel t v s).
  Proof.
    induction fuel as [|fuel IH]; intros t v.
    - apply (jp_with (fun S n v s => Undef "stack")). intros n x. apply jp_undef.
    - apply (jp_with (fun S n v s => to_json (O S) E env fuel (env n) v s)). intros n x. apply IH.
  Qed.
End Pieces.

Lemma pc_json E env fuel t v : pieces (json_text E env fuel t v).
Proof.
  destruct (jp_to_json plain_out (fun S s _ => s)) with (E := E) (env := env) (fuel := fuel) (t := t) (v := v) (n := 0%nat) as (ws & en & n' & P).
  - intros b n. exists [b], Fine, n. intros S s. cbn [jwrite plain_out]. unfold wlist. cbn [mfold]. destruct (owrite S s b); reflexivity.
  - intros n. exists [], Fine, n. reflexivity.
  - intros n. exists [], Fine, n. reflexivity.
  - intros n. exists [], Fine, n. reflexivity.
  - intros n. exists [[58]], Fine, n. intros S s. cbn [jcolon plain_out]. unfold wlist. cbn [mfold]. destruct (owrite S s [58]); reflexivity.
  - exists ws, en. intros S s. unfold json_text. rewrite P. destruct (wlist S ws s); cbn [bind]; auto. destruct en; reflexivity.
Qed.
Lemma pc_pretty E env fuel t v : pieces (pretty_text E env fuel t v).
Proof.
  destruct (jp_to_json pretty_out (fun S s n => (s, n))) with (E := E) (env := env) (fuel := fuel) (t := t) (v := v) (n := 0%nat) as (ws & en & n' & P).
  - intros b n. exists [b], Fine, n. intros S s. cbn [jwrite pretty_out]. unfold wlist. cbn [mfold]. destruct (owrite S s b); reflexivity.
  - intros n. exists [], Fine, (n + indent_size)%nat. reflexivity.
  - intros n. destruct (Nat.leb indent_size n) eqn:L.
    + exists [], Fine, (n - indent_size)%nat. intros S s. cbn [jdec pretty_out]. rewrite L. reflexivity.
    + exists [], (Throws E_overrun), n. intros S s. cbn [jdec pretty_out]. rewrite L. reflexivity.
  - intros n. exists [[10]; repeat 32 n], Fine, n. intros S s. cbn [jnl pretty_out]. unfold wlist. cbn [mfold]. destruct (owrite S s [10]) as [s1| |]; cbn [bind]; auto. destruct (owrite S s1 (repeat 32 n)); reflexivity.
  - intros n. exists [str ": "], Fine, n. intros S s. cbn [jcolon pretty_out]. unfold wlist. cbn [mfold]. destruct (owrite S s (str ": ")); reflexivity.
  - exists ws, en. intros S s. unfold pretty_text. rewrite P. destruct (wlist S ws s); cbn [bind]; auto. destruct en; reflexivity.
Qed.

(** A conversion as the other models have it, with a fixed_buf_stream that is a list. *)
Lemma wlist_fixed ws : forall d r, (List.length (concat ws) <= r)%nat -> wlist fixed_buf_stream ws (d, r) = Ok (d ++ concat ws, (r - List.length (concat ws))%nat).
Proof.
  unfold wlist. induction ws as [|b ws IH]; intros d r L; cbn [concat mfold] in *; [now rewrite app_nil_r, Nat.sub_0_r|].
  rewrite app_length in L. cbn [owrite fixed_buf_stream]. unfold check. rewrite (proj2 (Nat.leb_le _ _)) by lia. cbn [bind]. rewrite IH by lia.
  rewrite app_length, app_assoc, Nat.sub_add_distr. reflexivity.
Qed.
Definition converted (f : forall S : ostream, ost S -> res (ost S)) : res bytes :=
  let* n := f size_stream 0%nat in
  let* (out, room) := f fixed_buf_stream ([], n) in
  let* _ := check (Nat.eqb room 0) E_underrun in
  Ok out.
Lemma converted_is f : pieces f -> converted f = f vector_stream [].
Proof.
  intros (ws & en & P). unfold converted. rewrite !P, wlist_vector, wlist_size. cbn [bind app]. destruct en; cbn [finish bind]; [|reflexivity|reflexivity].
  rewrite P. rewrite wlist_fixed by (cbn; lia). cbn [bind finish]. rewrite Nat.add_0_l, Nat.sub_diag. reflexivity.
Qed.
Lemma convert_is E env fuel t v : convert_to_json E env fuel t v = json_text E env fuel t v vector_stream [].
Proof. rewrite <- (converted_is _ (pc_json E env fuel t v)). reflexivity. Qed.
Lemma format_shape (x : res (nat * nat)) (g : nat -> res ((bytes * nat) * nat)) :
  bind x (fun '(n, _) => let* (st, _) := g n in let* _ := check (Nat.eqb (snd st) 0) E_underrun in Ok (fst st)) =
  bind (bind x (fun '(s, _) => Ok s)) (fun n => let* (out, room) := bind (g n) (fun '(s, _) => Ok s) in let* _ := check (Nat.eqb room 0) E_underrun in Ok out).
Proof. destruct x as [[n k]| |]; cbn [bind]; try reflexivity. destruct (g n) as [[[o r] k']| |]; reflexivity. Qed.
Lemma format_is E env fuel t v : format_json E env fuel t v = pretty_text E env fuel t v vector_stream [].
Proof.
  rewrite <- (converted_is _ (pc_pretty E env fuel t v)).
  exact (format_shape (to_json (pretty_out size_stream) E env fuel t v (0%nat, 0%nat)) (fun n => to_json (pretty_out fixed_buf_stream) E env fuel t v (([], n), 0%nat))).
Qed.
