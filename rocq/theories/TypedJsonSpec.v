(** * TypedJsonSpec: what the native JSON writer and reader have to do (specification for C41, C42) *)
From Verif Require Import Base TypedBin TypedSpec Hex Keys Json JsonSpec Utf8 Abi AbiScalar AbiRead AbiReadBack TypedJson.

(** ** Values *)
(** [jwf env fuel t v]: [v] is a value of the C++ type [t], with at most [fuel] nested
    recursive types. Strings and byte strings are shorter than 4 GiB. *)
Fixpoint jwf_with (ref : nat -> val -> bool) (t : jty) (v : val) {struct t} : bool :=
  match t, v with
  | JScalar b, _ => wf key_env 0 (scalar_ty b) v
  | JVec t', VList l => forallb (jwf_with ref t') l
  | JOpt _, VOpt None => true
  | JOpt t', VOpt (Some x) => jwf_with ref t' x
  | JVariant ts, VVar i x => match nthz (map (jwf_with ref) ts) i with Some f => f x | None => false end
  | JStruct _ fs, VList l => forallb2 (map (fun f => jwf_with ref (snd f)) fs) l
  | JPair a b, VList [x; y] => jwf_with ref a x && jwf_with ref b y
  | JMaybe t', _ => jwf_with ref t' v
  | JView, VStr d | JOpaque _, VStr d => bytes_okb d
  | JEnum _, VInt z => fits_u 8 z
  | JRef n, _ => ref n v
  | _, _ => false
  end.
Fixpoint jwf (env : nat -> jty) (fuel : nat) : jty -> val -> bool :=
  jwf_with (fun n v => match fuel with O => false | S f => jwf env f (env n) v end).

(** ** The JSON document of a value *)
Fixpoint mapm {A} (l : list (res A)) : res (list A) :=
  match l with
  | [] => Ok []
  | r :: l' => let* x := r in let* xs := mapm l' in Ok (x :: xs)
  end.
Section Doc.
  Context (E : float_lib) (ref : nat -> val -> res jv).
  Fixpoint tdoc_with (t : jty) (v : val) {struct t} : res jv :=
    match t, v with
    | JScalar b, _ => scalar_jv E b v
    | JVec t', VList l => let* js := mapm (map (tdoc_with t') l) in Ok (JArr js)
    | JOpt _, VOpt None => Ok JNull
    | JOpt t', VOpt (Some x) => tdoc_with t' x
    | JVariant ts, VVar i x =>
        match nthz (map (fun t' => (type_name t', tdoc_with t')) ts) i with
        | Some (n, f) => let* j := f x in Ok (JArr [JStr n; j])
        | None => ill
        end
    | JStruct _ fs, VList l =>
        let* ms := (fix go (fs : list (bytes * jty)) (l : list val) {struct fs} : res (list (bytes * jv)) :=
                      match fs, l with
                      | [], [] => Ok []
                      | f :: fs', x :: l' => let* j := tdoc_with (snd f) x in let* ms := go fs' l' in Ok ((fst f, j) :: ms)
                      | _, _ => ill
                      end) fs l in
        Ok (JObj ms)
    | JView, VStr d => Ok (JStr (hex d))
    | JEnum names, VInt z => match nthz names z with Some n => Ok (JStr n) | None => Err E_unknown_status end
    | JRef n, _ => ref n v
    | (JPair _ _ | JMaybe _ | JOpaque _), _ => Undef "does not compile"
    | _, _ => ill
    end.
End Doc.
Fixpoint tdoc (E : float_lib) (env : nat -> jty) (fuel : nat) : jty -> val -> res jv :=
  tdoc_with E (fun n v => match fuel with O => Undef "stack" | S f => tdoc E env f (env n) v end).

(** ** The indented layout of a document: four spaces per level, one element per line,
    nothing between empty brackets. *)
Definition newline (n : nat) : bytes := 10 :: repeat 32 n.
Fixpoint layout (n : nat) (j : jv) : bytes :=
  match j with
  | JArr [] => str "[]"
  | JArr l => [91] ++ sep_concat (map (fun x => newline (n + 4) ++ layout (n + 4) x) l) ++ newline n ++ [93]
  | JObj [] => str "{}"
  | JObj l => [123] ++ sep_concat (map (fun kv => newline (n + 4) ++ to_json_string (fst kv) ++ str ": " ++ layout (n + 4) (snd kv)) l)
                    ++ newline n ++ [125]
  | _ => print j
  end.

(** A text without its white space outside strings. *)
Inductive place := Outside | Inside | Escaped.
Fixpoint strip (p : place) (t : bytes) : bytes :=
  match t with
  | [] => []
  | c :: t' =>
      match p with
      | Outside => if (c =? 32) || (c =? 9) || (c =? 10) || (c =? 13) then strip Outside t'
                   else c :: strip (if c =? 34 then Inside else Outside) t'
      | Inside => c :: strip (if c =? 34 then Outside else if c =? 92 then Escaped else Inside) t'
      | Escaped => c :: strip Inside t'
      end
  end.

(** ** Reading
    [treads t cur j v]: reading the document [j] into an object of type [t] which holds
    [cur] leaves [v] in it. *)
(** The first entry of a list with a given name. *)
Definition first_named {A} (k : bytes) (l : list (bytes * A)) (i : nat) (a : A) : Prop :=
  nth_error l i = Some (k, a) /\ ~ In k (map fst (firstn i l)).
Inductive treads (E : float_lib) : jty -> val -> jv -> val -> Prop :=
| R_bool cur b : treads E (JScalar B_bool) cur (JBool b) (VBool b)
| R_scalar b cur j x v : b <> B_bool -> text_of j = Some x -> scalar_from_text E b x = Ok v -> treads E (JScalar b) cur j v
| R_vec t l js vs : treads_all E t js vs -> treads E (JVec t) (VList l) (JArr js) (VList (l ++ vs))   (* appends *)
| R_null t cur : treads E (JOpt t) cur JNull (VOpt None)
| R_some t cur j v : j <> JNull -> treads E t (jdefault t) j v -> treads E (JOpt t) cur j (VOpt (Some v))
| R_variant ts cur jk k i t j v :
    text_of jk = Some k -> first_named k (map (fun t => (type_name t, t)) ts) i t -> treads E t (jdefault t) j v ->
    treads E (JVariant ts) cur (JArr [jk; j]) (VVar (Z.of_nat i) v)
| R_struct n fs l ms l' : treads_members E fs l ms l' -> treads E (JStruct n fs) (VList l) (JObj ms) (VList l')
| R_maybe t cur j v : treads E t cur j v -> treads E (JMaybe t) cur j v
with treads_all (E : float_lib) : jty -> list jv -> list val -> Prop :=
| R_nil t : treads_all E t [] []
| R_cons t j js v vs : treads E t (jdefault t) j v -> treads_all E t js vs -> treads_all E t (j :: js) (v :: vs)
with treads_members (E : float_lib) : list (bytes * jty) -> list val -> list (bytes * jv) -> list val -> Prop :=
| R_done fs l : treads_members E fs l [] l
| R_known fs l k j ms i t cur v l' :         (* the first field of that name is read again from what it holds *)
    first_named k fs i t -> nth_error l i = Some cur -> treads E t cur j v ->
    treads_members E fs (set_nth l i v) ms l' -> treads_members E fs l ((k, j) :: ms) l'
| R_unknown fs l k j ms l' :                 (* other keys are ignored *)
    ~ In k (map fst fs) -> treads_members E fs l ms l' -> treads_members E fs l ((k, j) :: ms) l'.
Scheme treads_mut := Minimality for treads Sort Prop
  with treads_all_mut := Minimality for treads_all Sort Prop
  with treads_members_mut := Minimality for treads_members Sort Prop.
Combined Scheme treads_mutind from treads_mut, treads_all_mut, treads_members_mut.

(** ** Round trip
    Types with from_json and to_json, whose structs (variants) have distinct, well formed
    member (type) names. *)
Fixpoint two_way (t : jty) : bool :=
  match t with
  | JScalar _ => true
  | JVec t | JOpt t => two_way t
  | JVariant ts => forallb two_way ts
  | JStruct _ fs => forallb (fun f => two_way (snd f)) fs
  | _ => false
  end.
Fixpoint names_distinct (t : jty) : Prop :=
  match t with
  | JVec t | JOpt t => names_distinct t
  | JVariant ts => NoDup (map type_name ts) /\ Forall utf8 (map type_name ts) /\ fold_right and True (map names_distinct ts)
  | JStruct _ fs => NoDup (map fst fs) /\ Forall (fun f => utf8 (fst f)) fs /\ fold_right and True (map (fun f => names_distinct (snd f)) fs)
  | _ => True
  end.
(** Values which survive: scalars as for C29 ([plain_value]); an engaged optional holding an empty
    optional is printed as null like the empty one. *)
Fixpoint survives (E : float_lib) (t : jty) (v : val) {struct t} : Prop :=
  match t, v with
  | JScalar b, _ => plain_value E b v
  | JVec t', VList l => fold_right and True (map (survives E t') l)
  | JOpt t', VOpt (Some x) => (match x with VOpt None => False | _ => True end) /\ survives E t' x
  | JVariant ts, VVar i x => match nthz (map (survives E) ts) i with Some P => P x | None => False end
  | JStruct _ fs, VList l => (fix go (fs : list (bytes * jty)) (l : list val) {struct fs} : Prop :=
                                match fs, l with
                                | f :: fs', x :: l' => survives E (snd f) x /\ go fs' l'
                                | _, _ => True
                                end) fs l
  | _, _ => True
  end.

(** The names of fields and types are strings of bytes. *)
Fixpoint names_bytes (t : jty) : Prop :=
  match t with
  | JVec t | JOpt t => names_bytes t
  | JVariant ts => Forall bytes_ok (map type_name ts) /\ fold_right and True (map names_bytes ts)
  | JStruct _ fs => Forall (fun f => bytes_ok (fst f)) fs /\ fold_right and True (map (fun f => names_bytes (snd f)) fs)
  | JEnum names => Forall bytes_ok names
  | _ => True
  end.
