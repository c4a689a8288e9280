(** * SizeBomb: a definition whose values have no bytes but long texts (for C61) *)
From Verif Require Import Base Utf8 Stream StreamFacts TypedBin TypedSpec TypedBinFacts JsonSpec Json JsonFacts Abi AbiScalar AbiScalarFacts AbiValue AbiRead AbiBin AbiBinSound AbiUse Keys KeysFacts AbiJson AbiJsonFacts Prop_AbiBin Prop_AbiJson SizeSpec.
Notation len := List.length.

Fixpoint fields_eqb (a b : list (bytes * bytes)) : bool :=
  match a, b with
  | [], [] => true
  | (x, y) :: a, (x', y') :: b => beq x x' && beq y y' && fields_eqb a b
  | _, _ => false
  end.
Definition struct_is (m : amap) (p : bytes) (fs : list (bytes * bytes)) : bool :=
  match afind p m with Some (AStruct fs') => fields_eqb fs fs' | _ => false end.
Lemma fields_eqb_eq a : forall b, fields_eqb a b = true -> a = b.
Proof.
  induction a as [|[x y] a IH]; intros [|[x' y'] b] H; try discriminate H; [reflexivity|]. cbn [fields_eqb] in H. apply andb_prop in H as [H Hf]. apply andb_prop in H as [H1 H2].
  apply beq_eq in H1, H2. rewrite (IH _ Hf). congruence.
Qed.
Lemma struct_is_eq m p fs : struct_is m p fs = true -> afind p m = Some (AStruct fs).
Proof. unfold struct_is. destruct (afind p m) as [[]|]; try discriminate. intros H. now rewrite (fields_eqb_eq _ _ H). Qed.
(** Loading a definition and checking the table of types, without naming the table. *)
Definition load_check (a : abi_def) (t : bytes) (f : amap -> bool) : bool :=
  match (let* c := convert a in let* (q, c2) := abi_get_type c t in Ok (q, abi_types c2)) with
  | Ok (q, m) => beq q t && f m
  | _ => false
  end.
Lemma load_check_spec a t f : load_check a t f = true -> exists m, loaded a t t m /\ f m = true.
Proof.
  unfold load_check. destruct (let* c := convert a in let* (q, c2) := abi_get_type c t in Ok (q, abi_types c2)) as [[q m]| |] eqn:H; try discriminate. intros X. apply andb_prop in X as [X1 X2].
  apply beq_eq in X1. subst q. exists m. split; [now apply loaded_run|exact X2].
Qed.

(** ** Bytes to text *)
Fixpoint bomb_value (n : nat) : aval := match n with O => AVStruct [] | S k => AVStruct [bomb_value k; bomb_value k] end.
Fixpoint bomb_doc (n : nat) : jv := match n with O => JObj [] | S k => JObj [(str "a", bomb_doc k); (str "b", bomb_doc k)] end.
Definition structs_ok (fs : nat -> list (bytes * bytes)) (n : nat) (m : amap) : bool := forallb (fun i => struct_is m (bomb_name i) (fs i)) (seq 0 (S n)).
Lemma structs_ok_spec fs n m : structs_ok fs n m = true -> forall i, (i <= n)%nat -> afind (bomb_name i) m = Some (AStruct (fs i)).
Proof. intros H i Hi. apply struct_is_eq. unfold structs_ok in H. rewrite forallb_forall in H. apply H. apply in_seq. lia. Qed.
Lemma bomb_loaded : load_check (bomb_abi 127) (bomb_name 127) (fun m => trailingb m && structs_ok bomb_fields 127 m) = true.
Proof. vm_compute. reflexivity. Qed.
Lemma bomb_shows E m n : (forall i, (i <= n)%nat -> afind (bomb_name i) m = Some (AStruct (bomb_fields i))) -> forall k ext, (n < k)%nat -> shows E m k ext (bomb_name n) (bomb_value n) (bomb_doc n).
Proof.
  induction n as [|n IH]; intros H k ext Hk; cbn [bomb_value bomb_doc]; (destruct k as [|k]; [lia|]).
  - eapply shows_struct; [apply H; lia|]. cbn [bomb_fields]. constructor.
  - eapply shows_struct; [apply H; lia|]. cbn [bomb_fields]. assert (H' : forall i, (i <= n)%nat -> afind (bomb_name i) m = Some (AStruct (bomb_fields i))) by (intros i Hi; apply H; lia).
    constructor; [apply (IH H'); lia|]. constructor; [apply (IH H'); lia|]. constructor.
Qed.
Lemma bomb_form n : form (bomb_value n) [].
Proof.
  induction n as [|n IH]; cbn [bomb_value]; constructor; [constructor|]. change (forms [bomb_value n; bomb_value n] ([] ++ [] ++ [])). repeat (constructor; [exact IH|]). constructor.
Qed.
Lemma bomb_settled m n : (forall i, (i <= n)%nat -> afind (bomb_name i) m = Some (AStruct (bomb_fields i))) -> settled m [] (bomb_name n) (bomb_value n).
Proof.
  induction n as [|n IH]; intros H; cbn [bomb_value]; (eapply settled_struct; [apply H; lia|]); cbn [bomb_fields]; [constructor|].
  assert (X : ~ extension_type m (bomb_name n)) by (intros (q & Q); rewrite H in Q by lia; discriminate).
  constructor; [intros Y; contradiction|discriminate|]. constructor; [intros Y; contradiction| |constructor]. intros _. apply IH. intros i Hi. apply H. lia.
Qed.
Lemma bomb_length n : Z.of_nat (len (print (bomb_doc n))) = 13 * 2 ^ Z.of_nat n - 11.
Proof.
  induction n as [|n IH]; [reflexivity|]. cbn [bomb_doc print map sep_concat fst snd].
  change (to_json_string (str "a")) with [34; 97; 34]. change (to_json_string (str "b")) with [34; 98; 34]. repeat (rewrite app_length || cbn [len app]).
  rewrite !Nat2Z.inj_succ, ?Z.pow_succ_r by lia. repeat (rewrite Nat2Z.inj_add || rewrite Nat2Z.inj_succ). rewrite IH. change (Z.of_nat 0) with 0. lia.
Qed.

(** ** An array of items without bytes *)
Lemma empty_items_loaded : load_check empty_abi (str "e[]") (fun m => trailingb m && struct_is m (str "e") [] && match afind (str "e[]") m with Some (AArray q) => beq q (str "e") | _ => false end) = true.
Proof. vm_compute. reflexivity. Qed.
Definition empties (n : nat) : aval := AVList (repeat (AVStruct []) n).
Definition empties_doc (n : nat) : jv := JArr (repeat (JObj []) n).
Lemma empties_shows E m n : afind (str "e") m = Some (AStruct []) -> afind (str "e[]") m = Some (AArray (str "e")) -> Z.of_nat n < 2 ^ 31 -> shows E m 128 true (str "e[]") (empties n) (empties_doc n).
Proof.
  intros H1 H2 L. unfold empties, empties_doc. eapply shows_list; [exact H2|now rewrite repeat_length|]. clear L. induction n as [|n IH]; cbn [repeat]; constructor; [|exact IH].
  eapply shows_struct; [exact H1|]. constructor.
Qed.
Lemma empties_forms n : forms (repeat (AVStruct []) n) [].
Proof. induction n as [|n IH]; cbn [repeat]; [constructor|]. refine (forms_cons (AVStruct []) _ [] [] _ IH). repeat constructor. Qed.
Lemma empties_text n : (1 <= n)%nat -> len (print (empties_doc n)) = (3 * n + 1)%nat.
Proof.
  intros H. unfold empties_doc. cbn [print]. rewrite !app_length. cbn [len]. enough (len (sep_concat (map print (repeat (JObj []) n))) + 1 = 3 * n)%nat by lia.
  induction n as [|n IH]; [lia|]. destruct n as [|n]; [reflexivity|]. specialize (IH ltac:(lia)).
  change (sep_concat (map print (repeat (JObj []) (S (S n))))) with (print (JObj []) ++ [44] ++ sep_concat (map print (repeat (JObj []) (S n)))). rewrite !app_length. change (len (print (JObj []))) with 2%nat. cbn [len]. lia.
Qed.

(** ** Text to bytes: a struct with two fields of the same name *)
Lemma twin_loaded : load_check (twin_abi 126) (bomb_name 126) (fun m => structs_ok twin_fields 126 m && match afind (str "uint8") m with Some (ABuiltin B_uint8) => true | _ => false end) = true.
Proof. vm_compute. reflexivity. Qed.
Fixpoint twin_doc (n : nat) : jv := match n with O => JObj [(str "a", JNum (str "7"))] | S k => JObj [(str "a", twin_doc k)] end.
Fixpoint twin_value (n : nat) : aval := match n with O => AVStruct [AVBase B_uint8 (VInt 7)] | S k => AVStruct [twin_value k; twin_value k] end.
Lemma ws_nil : ws []. Proof. constructor. Qed.
Lemma twin_value_text lax n : value_text lax (twin_doc n) (twin_text n).
Proof.
  assert (K : string_text lax (str "a") (str "a")) by (apply (St_char lax 97 [] []); [unfold scalar; lia|lia|lia|lia|constructor]).
  induction n as [|n IH]; cbn [twin_doc twin_text].
  - refine (Vt_obj lax _ (str """a"":7") _). refine (Mt_one lax (str "a") _ [] (str "a") [] [] (str "7") [] ws_nil K ws_nil ws_nil _ ws_nil). constructor.
    exists [], (str "7"), [], []. split; [|intros c sg d Q; discriminate Q]. split; [reflexivity|]. split; [now left|]. split; [right; exists 55, []; split; [reflexivity|split; [lia|constructor]]|]. split; now left.
  - change (str "{""a"":" ++ twin_text n ++ str "}") with (123 :: str """a"":" ++ twin_text n ++ [125]). rewrite app_assoc. apply Vt_obj.
    change (str """a"":" ++ twin_text n) with ([] ++ 34 :: str "a" ++ 34 :: [] ++ 58 :: [] ++ twin_text n). rewrite <- (app_nil_r (twin_text n)). exact (Mt_one lax (str "a") _ [] (str "a") [] [] _ [] ws_nil K ws_nil ws_nil IH ws_nil).
Qed.
Lemma twin_text_length n : len (twin_text n) = (6 * n + 7)%nat.
Proof. induction n as [|n IH]; [reflexivity|]. cbn [twin_text]. rewrite !app_length, IH. change (len (str "{""a"":")) with 5%nat. change (len (str "}")) with 1%nat. lia. Qed.
Lemma twin_text_bytes n : Forall (fun c => 1 <= c < 256) (twin_text n).
Proof.
  assert (K : forall s, forallb (fun c => (1 <=? c) && (c <? 256)) s = true -> Forall (fun c => 1 <= c < 256) s) by (intros s H; apply Forall_forall; intros c Hc; rewrite forallb_forall in H; specialize (H c Hc); lia).
  induction n as [|n IH]; cbn [twin_text]; [apply K; reflexivity|]. apply Forall_app. split; [apply K; reflexivity|]. apply Forall_app. split; [exact IH|apply K; reflexivity].
Qed.
Lemma twin_reads E m n : (forall i, (i <= n)%nat -> afind (bomb_name i) m = Some (AStruct (twin_fields i))) -> afind (str "uint8") m = Some (ABuiltin B_uint8) ->
  forall ext, reads E m by_name ext (bomb_name n) (twin_doc n) (twin_value n).
Proof.
  intros H U. induction n as [|n IH]; intros ext; cbn [twin_doc twin_value].
  - eapply reads_struct; [apply H; lia| |].
    + exists [str "a"], []. split; [reflexivity|]. split; [|constructor]. constructor; [|constructor]. reflexivity.
    + cbn [twin_fields]. constructor; [|constructor]. eapply reads_text; [exact U|discriminate|reflexivity|]. reflexivity.
  - assert (H' : forall i, (i <= n)%nat -> afind (bomb_name i) m = Some (AStruct (twin_fields i))) by (intros i Hi; apply H; lia).
    eapply reads_struct; [apply H; lia| |].
    + exists [str "a"; str "a"], []. split; [reflexivity|]. split; [|constructor]. constructor; [reflexivity|]. constructor; [reflexivity|]. constructor.
    + cbn [twin_fields]. constructor; [apply IH, H'|]. constructor; [apply IH, H'|]. constructor.
Qed.
Lemma twin_height n : height (twin_doc n) = (n + 2)%nat.
Proof. induction n as [|n IH]; [reflexivity|]. cbn [twin_doc height fold_right snd]. rewrite IH. lia. Qed.
Lemma twin_length n : Z.of_nat (len (enc (twin_value n))) = 2 ^ Z.of_nat n.
Proof.
  induction n as [|n IH]; [reflexivity|]. cbn [twin_value enc map concat]. rewrite app_nil_r, app_length, Nat2Z.inj_add, IH, Nat2Z.inj_succ, Z.pow_succ_r by lia. lia.
Qed.
