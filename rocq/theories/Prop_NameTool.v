(** * Property C53: the command line tools num2name and name2num.
    Model: NameTool.v. Specification: NameToolSpec.v, [valid_name_text] and [trim_dots] of NameFacts.v. *)
From Verif Require Import Base Name NameFacts Prop_Name Decimal Capi NameTool NameToolSpec NameToolFacts.

(** ** C53 *)
(** For all arguments and all contents of the standard input: the inputs are the arguments which are no
    options or, if there are none, the lines of the standard input. Each is answered on its own, in order, by
    the rules of [answer]; the status is 0 if and only if there was no error. The direction depends on the
    name of the program and on the number of reversals, the form of the numbers on the last of x and d. *)
Theorem C53_run : forall prog args input lines called in_h,
  (forall a, In a args -> a <> []) ->
  (forall a, In a args -> is_option a = true -> option_letters a <> None) ->
  (called = true <-> exists p q, prog = p ++ str "name2num" ++ q) ->
  (in_h = true <-> in_hex (all_letters args)) ->
  lines_are input lines ->
  let inputs := match filter (fun a => negb (is_option a)) args with [] => lines | l => l end in
  exists ws, Forall2 (answer (xorb called (turned (all_letters args))) in_h) inputs ws /\
    main (prog :: args) input = Ok (concat (map out ws), concat (map err ws), if forallb ok ws then 0 else 1).
Proof.
  intros prog args input lines called in_h N K C H L inputs.
  assert (Ec : contains (str "name2num") prog = called) by (apply eq_true_iff_eq; rewrite C; apply contains_spec).
  assert (Eh : turn_hex true (all_letters args) = in_h) by (apply eq_true_iff_eq; rewrite H; apply turn_hex_spec).
  exists (map (fun s => handle_one s (xorb called (turned (all_letters args))) in_h) inputs). split.
  - induction inputs as [|s l IH]; constructor; [apply handle_one_spec|exact IH].
  - unfold main. rewrite arguments_ok by assumption. cbn [reverse hex names app]. rewrite turn_rev_spec, Ec, Eh.
    rewrite (getlines_spec _ _ L). fold inputs. rewrite handle_all_spec by (now left). cbn [app]. rewrite !map_map, Z.eqb_refl. cbn [andb].
    do 2 f_equal. induction inputs as [|s l IH]; [reflexivity|]. cbn [forallb map]. destruct (ok (handle_one s _ _)); [exact IH|reflexivity].
Qed.
Print Assumptions C53_run.
(** Every input has lines, so the above speaks about all runs whose options are known. *)
Theorem C53_lines : forall input, exists lines, lines_are input lines /\ forall other, lines_are input other -> other = lines.
Proof. intros input. destruct (lines_exist input) as (l & H). exists l. split; [exact H|]. intros k K. rewrite <- (getlines_spec _ _ H). symmetry. now apply getlines_spec. Qed.
Print Assumptions C53_lines.

(** An option which is not known, or which asks for help, stops the tool before any input is read, with
    status 2: whatever the arguments after it and the standard input are. *)
Theorem C53_usage : forall prog before a after input,
  (forall x, In x before -> x <> []) ->
  (forall x, In x before -> is_option x = true -> option_letters x <> None) ->
  is_option a = true -> option_letters a = None ->
  exists t, main (prog :: before ++ a :: after) input = Ok ([], t, 2) /\
    In t [line (str "Usage: num2name [-r|--reverse] [values...]");
          line (str "Usage: name2num [-x|--hex] [-d|--dec] [-r|--reverse] [names...]");
          line (str "Unknown argument: " ++ a)].
Proof.
  intros prog before a after input N K E T. unfold main.
  destruct (arguments_bad before (Options (contains (str "name2num") prog) true []) a after N K E T) as (r & [-> | ->]); eexists; (split; [reflexivity|]).
  - unfold usage. destruct r; cbn [In]; auto.
  - cbn [In]. auto.
Qed.
Print Assumptions C53_usage.

(** Which of the texts it is: help is for the tool and the direction in which the letters read so far have turned it. *)
Lemma arguments_more l : forall o o' r, arguments l o = Go o' -> arguments (l ++ r) o = arguments r o'.
Proof.
  induction l as [|a l IH]; intros o o' r H; cbn [app arguments] in *; [congruence|]. destruct (argument a o); [|discriminate H|discriminate H]. now apply IH.
Qed.
Lemma letters_more a l : forall o o' r, letters a l o = Go o' -> letters a (l ++ r) o = letters a r o'.
Proof.
  induction l as [|c l IH]; intros o o' r H; cbn [app letters] in *; [congruence|].
  destruct (c =? 120); [now apply IH|]. destruct (c =? 100); [now apply IH|]. destruct (c =? 114); [now apply IH|]. destruct (c =? 104); discriminate H.
Qed.
Definition usage_text (names_to_numbers : bool) : bytes :=
  line (if names_to_numbers then str "Usage: name2num [-x|--hex] [-d|--dec] [-r|--reverse] [names...]" else str "Usage: num2name [-r|--reverse] [values...]").
Theorem C53_help : forall prog before a after input called,
  (forall x, In x before -> x <> []) ->
  (forall x, In x before -> is_option x = true -> option_letters x <> None) ->
  (called = true <-> exists p q, prog = p ++ str "name2num" ++ q) ->
  let run := main (prog :: before ++ a :: after) input in
  (a = str "--help" -> run = Ok ([], usage_text (xorb called (turned (all_letters before))), 2)) /\
  (forall l c r, a = str "-" ++ l ++ c :: r -> forallb (fun c => existsb (Z.eqb c) (str "xdr")) l = true -> ~ In c (str "xdr") ->
     ~ In a [str "--help"; str "--reverse"; str "--hex"; str "--dec"] ->
     run = Ok ([], if c =? 104 then usage_text (xorb called (turned (all_letters before ++ l))) else line (str "Unknown argument: " ++ a), 2)).
Proof.
  intros prog before a after input called N K C run.
  assert (Ec : contains (str "name2num") prog = called) by (apply eq_true_iff_eq; rewrite C; apply contains_spec).
  assert (A : arguments (before ++ a :: after) (Options (contains (str "name2num") prog) true []) =
    arguments (a :: after) (Options (turn_rev called (all_letters before)) (turn_hex true (all_letters before)) (filter (fun a => negb (is_option a)) before))).
  { rewrite Ec. apply arguments_more. rewrite arguments_ok by assumption. reflexivity. }
  split.
  - intros ->. unfold run, main. rewrite A, turn_rev_spec. reflexivity.
  - intros l c r -> F Nc L. unfold run, main. rewrite A. clear A. change (str "-" ++ l ++ c :: r) with (45 :: l ++ c :: r) in *. cbn [arguments]. unfold argument.
    assert (B : forall t, In t [str "--help"; str "--reverse"; str "--hex"; str "--dec"] -> beq (45 :: l ++ c :: r) t = false).
    { intros t It. destruct (beq (45 :: l ++ c :: r) t) eqn:E; [|reflexivity]. apply beq_eq in E. rewrite E in L. contradiction. }
    rewrite !B by (cbn [In]; auto). erewrite letters_more by (apply letters_ok; exact F). cbn [letters reverse hex names].
    destruct (Z.eqb_spec c 120) as [->|_]; [exfalso; apply Nc; now left|]. destruct (Z.eqb_spec c 100) as [->|_]; [exfalso; apply Nc; right; now left|].
    destruct (Z.eqb_spec c 114) as [->|_]; [exfalso; apply Nc; right; right; now left|].
    destruct (Z.eqb_spec c 104); [|reflexivity]. rewrite <- turn_rev_app, turn_rev_spec. reflexivity.
Qed.
Print Assumptions C53_help.

(** A text stands for at most one value, below 2^64; names are printed the same for the same value only.
    What name2num writes in either form is read back by num2name as the same value. *)
Theorem C53_numbers : forall s v, number s v -> 0 <= v < 2 ^ 64 /\ forall w, number s w -> w = v.
Proof. intros s v H. split; [eapply number_range; eauto|]. intros w K. eapply number_unique; eauto. Qed.
Print Assumptions C53_numbers.
Theorem C53_texts_read_back : forall t v, 0 <= v < 2 ^ 64 -> hex_text t v \/ decimal_text t v -> number t v /\ ~ In 10 t.
Proof.
  intros t v Hv [H|H].
  - split; [now apply hex_text_reads|eapply hex_text_line; eauto].
  - split; [now apply decimal_text_reads|eapply decimal_text_line; eauto].
Qed.
Print Assumptions C53_texts_read_back.

(** Pipes: numbers through num2name, through name2num with any known options that keep its direction,
    and through num2name again: no errors, and the values stay the same at each step. *)
Theorem C53_pipe : forall (items : list (bytes * Z)) opts,
  (forall t v, In (t, v) items -> number t v /\ ~ In 10 t) ->
  (forall a, In a opts -> is_option a = true /\ option_letters a <> None) ->
  turned (all_letters opts) = false ->
  exists texts,
    let names := concat (map (fun i => line (name_to_string (snd i))) items) in
    main [str "num2name"] (concat (map (fun i => line (fst i)) items)) = Ok (names, [], 0) /\
    main (str "name2num" :: opts) names = Ok (concat (map line texts), [], 0) /\
    Forall2 (fun i t => number t (snd i)) items texts /\
    main [str "num2name"] (concat (map line texts)) = Ok (names, [], 0).
Proof.
  intros items opts H K T.
  assert (Ne : forall a, In a opts -> a <> []) by (intros a Ha ->; destruct (K _ Ha) as [X _]; discriminate X).
  assert (Fn : filter (fun a => negb (is_option a)) opts = []).
  { clear - K. induction opts as [|a l IH]; [reflexivity|]. cbn [filter]. destruct (K a (or_introl eq_refl)) as [-> _]. apply IH. intros; apply K; now right. }
  assert (G : forall its : list (bytes * Z), (forall t v, In (t, v) its -> number t v /\ ~ In 10 t) ->
    main [str "num2name"] (concat (map (fun i => line (fst i)) its)) = Ok (concat (map (fun i => line (name_to_string (snd i))) its), [], 0)).
  { intros its Hi. unfold main. cbn [arguments names reverse hex].
    replace (contains (str "name2num") (str "num2name")) with false by reflexivity.
    rewrite <- (map_map fst line), (getlines_spec _ (map fst its)).
    2:{ split; [|now left]. intros l Hl. apply in_map_iff in Hl as ([t v] & <- & I0). now apply (Hi t v). }
    rewrite (handle_all_good fst (fun i => name_to_string (snd i))); [reflexivity|].
    intros [t v] I0. cbn [fst snd]. unfold handle_one. destruct (Hi t v I0) as [Nt _]. apply stoull_spec in Nt. rewrite Nt. now rewrite Nat.eqb_refl. }
  set (h := turn_hex true (all_letters opts)).
  exists (map (fun i => number_text h (snd i)) items). intros nm.
  assert (R : forall i, In i items -> 0 <= snd i < 2 ^ 64) by (intros [t v] I0; eapply number_range; apply (H t v I0)).
  assert (NT : forall v, 0 <= v < 2 ^ 64 -> number (number_text h v) v /\ ~ In 10 (number_text h v)).
  { intros v Hv. apply C53_texts_read_back; [exact Hv|]. unfold number_text. destruct h; [left; now apply hex_number_text|right; now apply dec_text]. }
  split; [now apply G|]. split; [|split].
  - unfold main. rewrite arguments_ok; [|exact Ne|intros a Ha _; now apply K]. cbn [names reverse hex app]. rewrite Fn, turn_rev_spec, T.
    replace (contains (str "name2num") (str "name2num")) with true by reflexivity. cbn [xorb]. fold h. unfold nm.
    rewrite <- (map_map (fun i => name_to_string (snd i)) line), (getlines_spec _ (map (fun i => name_to_string (snd i)) items)).
    2:{ split; [|now left]. intros l Hl. apply in_map_iff in Hl as (i & <- & I0). apply name_text_line. now apply R. }
    rewrite (handle_all_good (fun i => name_to_string (snd i)) (fun i => number_text h (snd i))); [now rewrite map_map|].
    intros i I0. unfold handle_one, string_to_name_strict. destruct (C06_name_text_roundtrip (snd i) (R i I0)) as (_ & _ & _ & _ & E). now rewrite E.
  - clear - R NT. induction items as [|i l IH]; cbn [map]; constructor; [apply NT, R; now left|]. apply IH. intros j Hj. apply R. now right.
  - rewrite map_map. specialize (G (map (fun i => (number_text h (snd i), snd i)) items)). rewrite !map_map in G. cbn [fst snd] in G. apply G.
    intros t v I0. apply in_map_iff in I0 as (i & E & I0). assert (t = number_text h (snd i)) by congruence. assert (v = snd i) by congruence. subst. apply NT, R, I0.
Qed.
Print Assumptions C53_pipe.

(** An empty argument is not safe: a[0] is read past the end of the string_view, even though the byte
    there is the terminator of the argument; the C++ standard gives it no meaning (a hardened library stops). *)
Theorem C53_empty_argument_refuted : forall prog before after input,
  (forall x, In x before -> x <> []) ->
  (forall x, In x before -> is_option x = true -> option_letters x <> None) ->
  exists w, main (prog :: before ++ [] :: after) input = Undef w.
Proof.
  intros prog before after input N K. unfold main. rewrite arguments_empty by assumption. eauto.
Qed.
Print Assumptions C53_empty_argument_refuted.
(** num2name takes texts which are no value of uint64: a minus sign, and a leading 0 makes it octal. *)
Theorem C53_unsigned_refuted :
  number (str "-1") (2 ^ 64 - 1) /\ number (str " -18446744073709551615") 1 /\ number (str "010") 8 /\
  main [str "num2name"] (line (str "-1")) = Ok (line (str "zzzzzzzzzzzzj"), [], 0).
Proof. split; [|split; [|split]]; [apply stoull_spec; reflexivity..|vm_compute; reflexivity]. Qed.
Print Assumptions C53_unsigned_refuted.

Example C53_example :
  main [str "/usr/bin/name2num"; str "eosio"; str "Bad"; str "-d"] [] =
    Ok (line (str "6138663577826885632"), line (str "character is not in allowed character set for names"), 1) /\
  main [str "num2name"; str "0x5530ea0000000000"; str "12x"; str "x"; str "18446744073709551616"] [] =
    Ok (line (str "eosio"), line (str "Invalid name value: 12x") ++ line (str "stoull") ++ line (str "stoull"), 1) /\
  main [str "num2name"; str "-rx"] (str "a" ++ [10] ++ str "eosio.token") =
    Ok (line (str "0x3000000000000000") ++ line (str "0x5530ea033482a600"), [], 0) /\
  main [str "num2name"; str "-q"] [] = Ok ([], line (str "Unknown argument: -q"), 2).
Proof. vm_compute. auto. Qed.
