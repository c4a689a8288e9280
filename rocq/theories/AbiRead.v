(** * AbiRead: which JSON documents denote a value of an ABI type (specification vocabulary,
    independent of the conversion code) *)
From Verif Require Import Base TypedBin JsonSpec Abi AbiScalar AbiValue.

(** The text of a JSON string or number. *)
Definition text_of (j : jv) : option bytes := match j with JStr t | JNum t => Some t | _ => None end.

(** ** Which members of an object are taken for the fields of a struct
    [names]: the names of the fields, [l]: the members, [sel]: the values for the first fields;
    the fields behind them are left out. *)
(** The members are exactly the first fields, in the order of the definition. *)
Definition in_order (names : list bytes) (l : list (bytes * jv)) (sel : list jv) : Prop :=
  map fst l = firstn (List.length l) names /\ map snd l = sel.
(** A field is taken from the last member with its name; members with other names are
    ignored. *)
Fixpoint last_value (name : bytes) (l : list (bytes * jv)) : option jv :=
  match l with
  | [] => None
  | (k, j) :: l' => match last_value name l' with
                    | Some x => Some x
                    | None => if beq k name then Some j else None
                    end
  end.
Definition by_name (names : list bytes) (l : list (bytes * jv)) (sel : list jv) : Prop :=
  exists given absent, names = given ++ absent /\
    Forall2 (fun n j => last_value n l = Some j) given sel /\
    Forall (fun n => last_value n l = None) absent.

(** ** Nesting *)
(** Structs, arrays and variants inside each other; an empty object does not count. *)
Fixpoint level (j : jv) : nat :=
  match j with
  | JArr l => S (fold_right (fun x n => Nat.max (level x) n) O l)
  | JObj [] => O
  | JObj l => S (fold_right (fun x n => Nat.max (level (snd x)) n) O l)
  | _ => O
  end.
(** All values inside each other. *)
Fixpoint height (j : jv) : nat :=
  match j with
  | JArr l => S (fold_right (fun x n => Nat.max (height x) n) O l)
  | JObj l => S (fold_right (fun x n => Nat.max (height (snd x)) n) O l)
  | _ => 1%nat
  end.

Section Reads.
  Variable E : float_lib.
  Variable m : amap.
  Variable picks : list bytes -> list (bytes * jv) -> list jv -> Prop.

  (** [reads ext p j v]: the document [j] denotes the value [v] of the type [p]. [ext]: as in
      [shows], trailing extension fields may be left out here. *)
  Inductive reads : bool -> bytes -> jv -> aval -> Prop :=
  | reads_bool ext p x :
      afind p m = Some (ABuiltin B_bool) -> reads ext p (JBool x) (AVBase B_bool (VBool x))
  | reads_text ext p b j t v :
      afind p m = Some (ABuiltin b) -> b <> B_bool -> text_of j = Some t -> scalar_from_text E b t = Ok v ->
      reads ext p j (AVBase b v)
  | reads_none ext p q : afind p m = Some (AOptional q) -> reads ext p JNull AVNone
  | reads_some ext p q j v : afind p m = Some (AOptional q) -> j <> JNull -> reads ext q j v -> reads ext p j (AVSome v)
  | reads_ext ext p q j v : afind p m = Some (AExtension q) -> reads ext q j v -> reads ext p j v
  | reads_list ext p q js l : afind p m = Some (AArray q) -> reads_items q js l -> reads ext p (JArr js) (AVList l)
  | reads_struct ext p fs ms sel l :
      afind p m = Some (AStruct fs) -> picks (map fst fs) ms sel -> reads_fields ext fs sel l ->
      reads ext p (JObj ms) (AVStruct l)
  | reads_var ext p fs i q x name j v :
      afind p m = Some (AVariant fs) -> text_of x = Some name -> nthz fs i = Some (name, q) ->
      0 <= i < 2 ^ 32 -> (forall i', 0 <= i' < i -> exists name' q', nthz fs i' = Some (name', q') /\ name' <> name) ->
      reads ext q j v -> reads ext p (JArr [x; j]) (AVVar i v)
  with reads_items : bytes -> list jv -> list aval -> Prop :=
  | ritems_nil q : reads_items q [] []
  | ritems_cons q j js v l : reads false q j v -> reads_items q js l -> reads_items q (j :: js) (v :: l)
  with reads_fields : bool -> list (bytes * bytes) -> list jv -> list aval -> Prop :=
  | rfields_nil ext : reads_fields ext [] [] []
  | rfields_omit f fs : Forall (fun x => extension_type m (snd x)) (f :: fs) -> reads_fields true (f :: fs) [] []
  | rfields_cons ext name q fs j js v l :
      reads (ext && is_nil fs) q j v -> reads_fields ext fs js l -> reads_fields ext ((name, q) :: fs) (j :: js) (v :: l).
End Reads.
Scheme reads_mut := Minimality for reads Sort Prop
  with reads_items_mut := Minimality for reads_items Sort Prop
  with reads_fields_mut := Minimality for reads_fields Sort Prop.
Combined Scheme reads_mutind from reads_mut, reads_items_mut, reads_fields_mut.
