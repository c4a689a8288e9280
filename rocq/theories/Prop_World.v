(** * C65: contexts do not influence each other *)
From Verif Require Import Base Name Json Abi AbiScalar Capi CapiPtr CapiPtrSpec CapiPtrFacts Prop_AbiBin Prop_CapiPtr CapiWorld.

(** ** Specification *)
(** What happens to context [i]. *)
Definition deeds_on (i : nat) (h : list (nat * deed)) : list deed := map snd (filter (fun x => Nat.eqb (fst x) i) h).
(** The life of a context by itself: never created, created and called, or destroyed after that. *)
Inductive life (E : float_lib) : list deed -> slot -> Prop :=
| life_unused : life E [] Unused
| life_live calls m : prun E created calls m -> life E (Created :: map (fun c => Called (fst c) (snd c)) calls) (Live m)
| life_deleted calls m : prun E created calls m -> life E (Created :: map (fun c => Called (fst c) (snd c)) calls ++ [Destroyed]) Deleted.

(** ** Proofs *)
(** One context, step by step. *)
Inductive go (E : float_lib) : slot -> list deed -> slot -> Prop :=
| go_nil s : go E s [] s
| go_create l s : go E (Live created) l s -> go E Unused (Created :: l) s
| go_destroy m l s : go E Deleted l s -> go E (Live m) (Destroyed :: l) s
| go_call m f m' r l s : pcall E (Some m) f (Some m') (PReturns r) -> go E (Live m') l s -> go E (Live m) (Called f r :: l) s.
Lemma go_calls E m calls m' : prun E m calls m' -> forall l s, go E (Live m') l s -> go E (Live m) (map (fun c => Called (fst c) (snd c)) calls ++ l) s.
Proof. induction 1 as [m|m f m1 r h m2 C _ IH]; intros l s G; [exact G|]. cbn [map app fst snd]. eapply go_call; [exact C|]. exact (IH l s G). Qed.
Lemma go_live E m l s : go E (Live m) l s ->
  (exists calls m', l = map (fun c => Called (fst c) (snd c)) calls /\ prun E m calls m' /\ s = Live m') \/
  (exists calls m', l = map (fun c => Called (fst c) (snd c)) calls ++ [Destroyed] /\ prun E m calls m' /\ s = Deleted).
Proof.
  revert m. induction l as [|d l IH]; intros m G.
  - inversion G; subst. left. exists [], m. split; [reflexivity|]. split; [apply prun_nil|reflexivity].
  - inversion G as [|? ? G'|m0 l0 s0 G'|m0 f m' r l0 s0 C G']; subst.
    + inversion G'; subst. right. exists [], m. split; [reflexivity|]. split; [apply prun_nil|reflexivity].
    + destruct (IH _ G') as [(calls & m1 & -> & R & ->)|(calls & m1 & -> & R & ->)]; [left|right]; exists ((f, r) :: calls), m1; split; try reflexivity; (split; [eapply prun_cons; eassumption|reflexivity]).
Qed.
Lemma life_go E l s : life E l s <-> go E Unused l s.
Proof.
  split.
  - intros [|calls m R|calls m R]; [apply go_nil| |].
    + apply go_create. rewrite <- (app_nil_r (map _ calls)). apply (go_calls E _ _ _ R). apply go_nil.
    + apply go_create. apply (go_calls E _ _ _ R). apply go_destroy, go_nil.
  - intros G. inversion G as [|l' s' G'| |]; subst; [apply life_unused|]. destruct (go_live _ _ _ _ G') as [(calls & m' & -> & R & ->)|(calls & m' & -> & R & ->)].
    + now apply life_live.
    + now apply (life_deleted E calls m').
Qed.
(** Any call can reach a context. *)
Definition home (i : nat) (p : pointer) : address := match p with Outside b => Local b | _ => Object i p end.
Lemma met_home w i p : met w i (home i p) = Some p.
Proof. destruct p; cbn [home met]; rewrite ?Nat.eqb_refl; reflexivity. Qed.
Lemma met_home_arg w i a : met_arg w i (option_map (home i) a) = Some a.
Proof. destruct a as [p|]; [|reflexivity]. cbn [option_map met_arg]. now rewrite met_home. Qed.
Lemma arrives_any w i f : exists q, arrives w i q = Some f.
Proof.
  destruct (plain f) eqn:P; [exists (Q_plain f); cbn [arrives]; now rewrite P|].
  destruct f as [| | | |s| |k t|k d n|k h| | |k t j|k t j|k t d n|k t h]; try discriminate P.
  - exists (Q_string_to_name (option_map (home i) s)). cbn [arrives]. now rewrite met_home_arg.
  - exists (Q_set_abi k (option_map (home i) t)). cbn [arrives]. now rewrite met_home_arg.
  - exists (Q_set_abi_bin k (option_map (home i) d) n). cbn [arrives]. now rewrite met_home_arg.
  - exists (Q_set_abi_hex k (option_map (home i) h)). cbn [arrives]. now rewrite met_home_arg.
  - exists (Q_json_to_bin k (option_map (home i) t) (option_map (home i) j)). cbn [arrives]. now rewrite !met_home_arg.
  - exists (Q_json_to_bin_reorderable k (option_map (home i) t) (option_map (home i) j)). cbn [arrives]. now rewrite !met_home_arg.
  - exists (Q_bin_to_json k (option_map (home i) t) (option_map (home i) d) n). cbn [arrives]. now rewrite !met_home_arg.
  - exists (Q_hex_to_json k (option_map (home i) t) (option_map (home i) h)). cbn [arrives]. now rewrite !met_home_arg.
Qed.
Lemma put_same w i s : put w i s i = s. Proof. unfold put. now rewrite Nat.eqb_refl. Qed.
Lemma put_other w i s j : j <> i -> put w i s j = w j. Proof. intros N. unfold put. now rewrite (proj2 (Nat.eqb_neq _ _) N). Qed.
Lemma deeds_same i d h : deeds_on i ((i, d) :: h) = d :: deeds_on i h.
Proof. unfold deeds_on. cbn [filter fst]. rewrite Nat.eqb_refl. reflexivity. Qed.
Lemma deeds_other i j d h : j <> i -> deeds_on j ((i, d) :: h) = deeds_on j h.
Proof. intros N. unfold deeds_on. cbn [filter fst]. rewrite (proj2 (Nat.eqb_neq _ _) (fun E => N (eq_sym E))). reflexivity. Qed.
Lemma wrun_go E h : forall w w', wrun E w h w' <-> forall i, go E (w i) (deeds_on i h) (w' i).
Proof.
  induction h as [|[i d] h IH]; intros w w'.
  - split.
    + intros R i. inversion R as [w0 w1 X|]; subst. rewrite X. apply go_nil.
    + intros G. apply wrun_nil. intros i. specialize (G i). inversion G; congruence.
  - split.
    + intros R j. inversion R as [|w0 i0 d0 s h0 w1 S R' E1 E2]; subst. rewrite IH in R'. specialize (R' j). destruct (Nat.eq_dec j i) as [->|N].
      * rewrite deeds_same. rewrite put_same in R'. destruct S as [U|m L|m q f m' r L A C]; [rewrite U; now apply go_create|rewrite L; now apply go_destroy|rewrite L; eapply go_call; eassumption].
      * rewrite deeds_other by exact N. now rewrite put_other in R' by exact N.
    + intros G. assert (S : exists s, wstep E w i d s /\ go E s (deeds_on i h) (w' i)).
      { specialize (G i). rewrite deeds_same in G. remember (w i) as wi eqn:Wi. inversion G as [|l s G'|m l s G'|m f m' r l s C G']; subst.
        - exists (Live created). split; [apply wstep_create; congruence|exact G'].
        - exists Deleted. split; [eapply wstep_destroy; symmetry; eassumption|exact G'].
        - destruct (arrives_any w i f) as [q A]. exists (Live m'). split; [eapply wstep_call; [symmetry; eassumption|exact A|exact C]|exact G']. }
      destruct S as (s & S & G'). eapply wrun_cons; [exact S|]. apply IH. intros j. destruct (Nat.eq_dec j i) as [->|N].
      * now rewrite put_same.
      * rewrite put_other by exact N. specialize (G j). now rewrite deeds_other in G by exact N.
Qed.

(** ** C65 *)
(** A sequence of calls on any number of contexts can happen, with the results and the contexts it ends with, exactly if
    this is so for each context with its own calls only. *)
Theorem C65_independent E h w : wrun E nothing h w <-> forall i, life E (deeds_on i h) (w i).
Proof. rewrite wrun_go. split; intros H i; specialize (H i); now apply life_go. Qed.
Print Assumptions C65_independent.
(** So the order of calls on different contexts does not matter. *)
Theorem C65_any_order E h1 h2 w : (forall i, deeds_on i h1 = deeds_on i h2) -> wrun E nothing h1 w -> wrun E nothing h2 w.
Proof. intros H R. rewrite C65_independent in *. intros i. rewrite <- H. apply R. Qed.
Print Assumptions C65_any_order.
(** ** Pointers *)
Lemma go_run E l : forall m s, go E (Live m) l s -> ~ In Destroyed l -> exists calls m', l = map (fun c => Called (fst c) (snd c)) calls /\ prun E m calls m' /\ s = Live m'.
Proof.
  intros m s G N. destruct (go_live _ _ _ _ G) as [H|(calls & m' & -> & _)]; [exact H|]. destruct N. apply in_app_iff. right. now left.
Qed.
(** A pointer returned by a call on one context stays readable, with the same bytes, whatever is done with other contexts, until
    a call on its own context which ends it (CapiPtrSpec.ends) or destroys it. *)
Theorem C65_pointers E w i f m r p h w2 : wstep E w i (Called f r) (Live m) -> pointer_of r = Some p ->
  wrun E (put w i (Live m)) h w2 ->
  (forall d, In (i, d) h -> exists g q, d = Called g q /\ ends f (g, q) = false) ->
  exists b, bytes_at (put w i (Live m)) (Object i p) = Some b /\ bytes_at w2 (Object i p) = Some b.
Proof.
  intros S P R N. inversion S as [| |m0 q f0 m' r0 L A C]; subst. rewrite wrun_go in R. specialize (R i). rewrite put_same in R.
  assert (K : forall d, In d (deeds_on i h) -> exists g q, d = Called g q /\ ends f (g, q) = false).
  { intros d D. apply N. unfold deeds_on in D. apply in_map_iff in D as ([j d'] & <- & D). apply filter_In in D as [D X]. apply Nat.eqb_eq in X. cbn [fst] in X. now subst j. }
  destruct (go_run E _ _ _ R) as (calls & m2 & El & Rc & Es).
  { intros D. destruct (K _ D) as (g & q' & X & _). discriminate X. }
  assert (Fc : Forall (fun later => ends f later = false) calls).
  { apply Forall_forall. intros [g q'] D. destruct (K (Called g q')) as (g' & q2 & X & Y); [rewrite El; apply in_map_iff; exists (g, q'); auto|]. injection X as <- <-. exact Y. }
  destruct (C55_lifetime E m0 f m r p calls m2 C P Rc Fc) as (b & C1 & C2). exists b. cbn [bytes_at]. rewrite put_same, Es. auto.
Qed.
Print Assumptions C65_pointers.
(** Once the context is destroyed, nothing can be read there any more. *)
Theorem C65_destroyed E w i s h w2 p : wstep E w i Destroyed s -> wrun E (put w i s) h w2 -> bytes_at w2 (Object i p) = None.
Proof.
  intros S R. inversion S; subst. rewrite wrun_go in R. specialize (R i). rewrite put_same in R. inversion R as [s0 E1 E2 E3| | |]. cbn [bytes_at]. now rewrite <- E3.
Qed.
Print Assumptions C65_destroyed.

(** ** A pointer into another context is as good as a copy of the bytes there. *)
Definition copies (w : process) (a : option address) : option (option address) :=
  match a with
  | None => Some None
  | Some a => match bytes_at w a with Some b => Some (Some (Local b)) | None => None end
  end.
Definition elsewhere (i : nat) (a : option address) : Prop := match a with Some (Object j _) => j <> i | _ => True end.
Lemma met_copy w i a : elsewhere i a -> met_arg w i a = match copies w a with Some a' => met_arg w i a' | None => None end.
Proof.
  destruct a as [[b|j p]|]; intros N; try reflexivity. cbn [met_arg met copies elsewhere] in *. rewrite (proj2 (Nat.eqb_neq _ _) N). now destruct (bytes_at w (Object j p)).
Qed.
(** The request with all its arguments copied into memory of the program. *)
Definition copied_request (w : process) (q : request) : option request :=
  let c := copies w in
  match q with
  | Q_plain f => Some (Q_plain f)
  | Q_string_to_name s => option_map Q_string_to_name (c s)
  | Q_set_abi k t => option_map (Q_set_abi k) (c t)
  | Q_set_abi_bin k d n => option_map (fun d => Q_set_abi_bin k d n) (c d)
  | Q_set_abi_hex k h => option_map (Q_set_abi_hex k) (c h)
  | Q_json_to_bin k t j => match c t, c j with Some t, Some j => Some (Q_json_to_bin k t j) | _, _ => None end
  | Q_json_to_bin_reorderable k t j => match c t, c j with Some t, Some j => Some (Q_json_to_bin_reorderable k t j) | _, _ => None end
  | Q_bin_to_json k t d n => match c t, c d with Some t, Some d => Some (Q_bin_to_json k t d n) | _, _ => None end
  | Q_hex_to_json k t h => match c t, c h with Some t, Some h => Some (Q_hex_to_json k t h) | _, _ => None end
  end.
Definition all_elsewhere (i : nat) (q : request) : Prop :=
  match q with
  | Q_plain _ => True
  | Q_string_to_name s | Q_set_abi _ s | Q_set_abi_bin _ s _ | Q_set_abi_hex _ s => elsewhere i s
  | Q_json_to_bin _ t j | Q_json_to_bin_reorderable _ t j | Q_bin_to_json _ t j _ | Q_hex_to_json _ t j => elsewhere i t /\ elsewhere i j
  end.
Theorem C65_foreign_arguments w i q : all_elsewhere i q ->
  arrives w i q = match copied_request w q with Some q' => arrives w i q' | None => None end.
Proof.
  destruct q as [f|s|k t|k d n|k h|k t j|k t j|k t d n|k t h]; cbn [all_elsewhere copied_request]; cbv zeta; intros L; [reflexivity|..]; cbn [arrives].
  all: try (rewrite (met_copy w i _ L); match goal with |- context [copies ?v ?x] => destruct (copies v x) end; reflexivity).
  all: destruct L as [L1 L2]; rewrite (met_copy w i _ L1), (met_copy w i _ L2);
    repeat match goal with |- context [copies ?v ?x] => destruct (copies v x) end; cbn [arrives]; try reflexivity;
    match goal with |- both_args ?a _ _ = _ => destruct a; reflexivity end.
Qed.
Print Assumptions C65_foreign_arguments.

(** ** Example: the text of a name made in one context is read as an argument of another, before and after the first is used again. *)
Definition ex_created : process := put (put nothing 0 (Live created)) 1 (Live created).
Definition ex_name : Z := string_to_name (str "eosio").
Definition ex_named : memory := set_str created (str "eosio").
Example world_example : exists w,
  wrun no_floats nothing
    [(0%nat, Created); (1%nat, Created);
     (0%nat, Called (P_name_to_string ex_name) (P_text (Some (Str_text 1))));
     (1%nat, Called (P_string_to_name (Some (Outside (str "eosio" ++ [0])))) (P_int ex_name)); (0%nat, Destroyed)] w /\
  arrives (put ex_created 0 (Live ex_named)) 1 (Q_string_to_name (Some (Object 0 (Str_text 1)))) = Some (P_string_to_name (Some (Outside (str "eosio" ++ [0])))) /\
  bytes_at w (Object 0 (Str_text 1)) = None.
Proof.
  exists (put (put ex_created 1 (Live created)) 0 Deleted). split; [|split; [vm_compute; reflexivity|vm_compute; reflexivity]].
  apply wrun_go. intros [|[|i]].
  - apply go_create. eapply (go_call _ _ _ ex_named); [eexists _, _; split; [split; [reflexivity|reflexivity]|split; vm_compute; reflexivity]|]. eapply go_destroy, go_nil.
  - apply go_create. eapply (go_call _ _ _ created); [split; [reflexivity|vm_compute; reflexivity]|]. apply go_nil.
  - apply go_nil.
Qed.
