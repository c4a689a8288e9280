(** * The compact text of a document is a JSON text of it (proofs for C28, C33, C41) *)
From Verif Require Import Base Utf8 Json JsonSpec JsonWrite AbiScalar.

(** [clean j c]: [c] is [j] with every byte of its strings and keys which is not part of
    a well formed UTF-8 character replaced by '?' ([sanitized], C25). *)
Inductive clean : jv -> jv -> Prop :=
| clean_null : clean JNull JNull
| clean_bool b : clean (JBool b) (JBool b)
| clean_str s c : sanitized s c -> clean (JStr s) (JStr c)
| clean_num t : clean (JNum t) (JNum t)
| clean_arr l l' : Forall2 clean l l' -> clean (JArr l) (JArr l')
| clean_obj l l' : Forall2 (fun x y => sanitized (fst x) (fst y) /\ clean (snd x) (snd y)) l l' -> clean (JObj l) (JObj l').

(** Documents that can be written: strings are strings of bytes, numbers are numbers. *)
Inductive writable : jv -> Prop :=
| writable_null : writable JNull
| writable_bool b : writable (JBool b)
| writable_str s : bytes_ok s -> writable (JStr s)
| writable_num t : number_fits t -> writable (JNum t)
| writable_arr l : Forall writable l -> writable (JArr l)
| writable_obj l : Forall (fun x => bytes_ok (fst x) /\ writable (snd x)) l -> writable (JObj l).

(** Documents whose strings are well formed UTF-8. *)
Inductive utf8_doc : jv -> Prop :=
| utf8_null : utf8_doc JNull
| utf8_bool b : utf8_doc (JBool b)
| utf8_str s : utf8 s -> utf8_doc (JStr s)
| utf8_num t : utf8_doc (JNum t)
| utf8_arr l : Forall utf8_doc l -> utf8_doc (JArr l)
| utf8_obj l : Forall (fun x => utf8 (fst x) /\ utf8_doc (snd x)) l -> utf8_doc (JObj l).

Section JvInd.
  Variable P : jv -> Prop.
  Hypothesis Hnull : P JNull.
  Hypothesis Hbool : forall b, P (JBool b).
  Hypothesis Hstr : forall s, P (JStr s).
  Hypothesis Hnum : forall t, P (JNum t).
  Hypothesis Harr : forall l, Forall P l -> P (JArr l).
  Hypothesis Hobj : forall l, Forall (fun x => P (snd x)) l -> P (JObj l).
  Fixpoint jv_ind' (j : jv) : P j :=
    match j with
    | JNull => Hnull
    | JBool b => Hbool b
    | JStr s => Hstr s
    | JNum t => Hnum t
    | JArr l => Harr l ((fix go l := match l return Forall P l with [] => Forall_nil _ | x :: l' => Forall_cons _ (jv_ind' x) (go l') end) l)
    | JObj l => Hobj l ((fix go l := match l return Forall (fun x => P (snd x)) l with
                                     | [] => Forall_nil _ | x :: l' => Forall_cons _ (jv_ind' (snd x)) (go l') end) l)
    end.
End JvInd.

Lemma sep_concat_cons x y l : sep_concat (x :: y :: l) = x ++ [44] ++ sep_concat (y :: l).
Proof. reflexivity. Qed.

Lemma str_value_text c t : value_text false (JStr c) t -> exists b, string_text false c b /\ t = 34 :: b ++ [34].
Proof. intros H. inversion H; subst. eauto. Qed.

Lemma print_value : forall j, writable j -> exists c, clean j c /\ value_text false c (print j).
Proof.
  induction j as [| b | s | t | l IH | l IH] using jv_ind'; intros W; inversion W; subst.
  - exists JNull. split; constructor.
  - exists (JBool b). split; [constructor|]. destruct b; constructor.
  - destruct (sanitized_total s H0) as [c Hc]. exists (JStr c). split; [constructor; auto|]. apply to_json_string_value; auto.
  - exists (JNum t). split; constructor; auto.
  - cbn [print]. 
    assert (K : l <> [] -> exists l', Forall2 clean l l' /\ items_text false l' (sep_concat (map print l))).
    { clear W. induction l as [|x l IHl]; [congruence|]. intros _.
      apply Forall_cons_iff in IH as [IHx IH]. apply Forall_cons_iff in H0 as [Wx Wl].
      destruct (IHx Wx) as (c & Hc & Tc). destruct l as [|y l].
      - exists [c]. split; [constructor; auto|]. cbn [map sep_concat].
        pose proof (It_one false c [] (print x) [] (Forall_nil _) Tc (Forall_nil _)) as T. cbn [app] in T. now rewrite app_nil_r in T.
      - destruct (IHl IH Wl ltac:(discriminate)) as (l' & Hl & Tl). exists (c :: l'). split; [constructor; auto|].
        cbn [map]. rewrite sep_concat_cons.
        exact (It_cons false c [] (print x) [] l' _ (Forall_nil _) Tc (Forall_nil _) Tl). }
    destruct l as [|x l].
    + exists (JArr []). split; [repeat constructor|]. apply (Vt_arr0 false []). constructor.
    + destruct (K ltac:(discriminate)) as (l' & Hl & Tl). exists (JArr l'). split; [constructor; auto|]. now constructor.
  - cbn [print]. set (f := fun kv => to_json_string (fst kv) ++ [58] ++ print (snd kv)).
    assert (K : l <> [] -> exists l', Forall2 (fun x y => sanitized (fst x) (fst y) /\ clean (snd x) (snd y)) l l' /\ members_text false l' (sep_concat (map f l))).
    { clear W. induction l as [|x l IHl]; [congruence|]. intros _.
      apply Forall_cons_iff in IH as [IHx IH]. apply Forall_cons_iff in H0 as [[Bx Wx] Wl].
      destruct (IHx Wx) as (c & Hc & Tc). destruct (sanitized_total _ Bx) as [k Hk].
      pose proof (to_json_string_value _ _ Bx Hk) as Tk. destruct (str_value_text _ _ Tk) as (kt & Hkt & Ek).
      destruct l as [|y l].
      - exists [(k, c)]. split; [constructor; auto|]. cbn [map sep_concat]. unfold f. rewrite Ek.
        pose proof (Mt_one false k c [] kt [] [] (print (snd x)) [] (Forall_nil _) Hkt (Forall_nil _) (Forall_nil _) Tc (Forall_nil _)) as T.
        cbn [app] in T |- *. rewrite app_nil_r in T. rewrite <- !app_assoc. exact T.
      - destruct (IHl IH Wl ltac:(discriminate)) as (l' & Hl & Tl). exists ((k, c) :: l'). split; [constructor; auto|].
        cbn [map]. rewrite sep_concat_cons. unfold f at 1. rewrite Ek.
        pose proof (Mt_cons false k c [] kt [] [] (print (snd x)) [] l' _ (Forall_nil _) Hkt (Forall_nil _) (Forall_nil _) Tc (Forall_nil _) Tl) as T.
        cbn [app] in T |- *. rewrite <- !app_assoc. cbn [app]. repeat (rewrite <- app_assoc; cbn [app]). exact T. }
    destruct l as [|x l].
    + exists (JObj []). split; [repeat constructor|]. apply (Vt_obj0 false []). constructor.
    + destruct (K ltac:(discriminate)) as (l' & Hl & Tl). exists (JObj l'). split; [constructor; auto|]. now constructor.
Qed.

Lemma clean_utf8 : forall j, utf8_doc j -> forall c, clean j c -> c = j.
Proof.
  induction j as [| b | s | t | l IH | l IH] using jv_ind'; intros U c C; inversion U; inversion C; subst; auto.
  - f_equal. eapply sanitized_fun; eauto. now apply sanitized_utf8.
  - f_equal. clear U C. match goal with F : Forall2 _ _ _ |- _ => revert IH; induction F as [|x y ? ? A]; intros IH; auto end.
    apply Forall_cons_iff in IH as [I1 I2]. match goal with F : Forall _ (_ :: _) |- _ => apply Forall_cons_iff in F as [U1 U2] end. f_equal; auto.
  - f_equal. clear U C. match goal with F : Forall2 _ _ _ |- _ => revert IH; induction F as [|x y ? ? [A B]]; intros IH; auto end.
    apply Forall_cons_iff in IH as [I1 I2]. match goal with F : Forall _ (_ :: _) |- _ => apply Forall_cons_iff in F as [[U0 U1] U2] end.
    destruct x, y; cbn in *. f_equal; auto. f_equal; auto. eapply sanitized_fun; eauto. now apply sanitized_utf8.
Qed.
Lemma print_text j : writable j -> exists c, clean j c /\ json_text c (print j).
Proof.
  intros W. destruct (print_value j W) as (c & C & T). exists c. split; auto.
  exists [], (print j), []. split; [constructor|]. split; [exact T|]. split; [constructor|]. now rewrite app_nil_r.
Qed.
Lemma print_text_utf8 j : writable j -> utf8_doc j -> json_text j (print j).
Proof. intros W U. destruct (print_text j W) as (c & C & T). now rewrite (clean_utf8 j U c C) in T. Qed.
Lemma clean_fun : forall j c, clean j c -> forall c', clean j c' -> c' = c.
Proof.
  induction j as [| b | s | t | l IH | l IH] using jv_ind'; intros c C c' C'; inversion C as [| | | |? l1 F1|? l1 F1]; inversion C' as [| | | |? l2 F2|? l2 F2]; subst; auto.
  - f_equal. eapply sanitized_fun; eauto.
  - f_equal. clear C C'. revert l2 F2 IH. induction F1; intros l2 F IH; inversion F; subst; auto. apply Forall_cons_iff in IH as [I1 I2]. f_equal; auto.
  - f_equal. clear C C'. revert l2 F2 IH. induction F1 as [|x y ? ? [A B]]; intros l2 F IH; inversion F as [|? z ? ? [A' B']]; subst; auto.
    apply Forall_cons_iff in IH as [I1 I2].
    destruct x, y, z; cbn in *. f_equal; auto. f_equal; auto. eapply sanitized_fun; eauto.
Qed.
