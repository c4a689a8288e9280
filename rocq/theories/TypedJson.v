(** * TypedJson: the native (C++ type driven) JSON writer and reader
    include/eosio/to_json.hpp, include/eosio/from_json.hpp, and the stream hooks of
    include/eosio/stream.hpp:140-185 *)
From Verif Require Import Base Stream TypedBin Hex Json JsonSpec Abi AbiScalar.

(** ** Types
    The C++ types to_json / from_json are instantiated at. [JScalar b] is the type behind
    the built-in ABI name [b] (AbiScalar.scalar_ty) with its own overloads. *)
Inductive jty : Set :=
| JScalar (b : builtin)
| JVec (t : jty)                               (* std::vector *)
| JOpt (t : jty)                               (* std::optional *)
| JVariant (ts : list jty)                     (* std::variant *)
| JStruct (name : bytes) (fs : list (bytes * jty))   (* EOSIO_REFLECT'ed struct, bases first *)
| JPair (a b : jty)                            (* std::pair: from_json always throws *)
| JMaybe (t : jty)                             (* might_not_exist<T>: from_json only *)
| JView                                        (* input_stream: to_json only, ship_protocol.hpp:15-20 *)
| JOpaque (t : jty)                            (* opaque<T>: no JSON overloads, opaque.hpp:46-125 *)
| JEnum (names : list bytes)                   (* transaction_status: to_json only, ship_protocol.hpp:43-82 *)
| JRef (n : nat).                              (* recurse_transaction_trace: to_json only, ship_protocol.hpp:331-352 *)

(** The member layout, for the binary format. *)
Fixpoint erase (t : jty) : ty :=
  match t with
  | JScalar b => scalar_ty b
  | JVec t => TVec (erase t)
  | JOpt t => TOpt (erase t)
  | JVariant ts => TVariant (map erase ts)
  | JStruct _ fs => TWrap (KStruct (map fst fs)) (TTuple (map (fun f => erase (snd f)) fs))
  | JPair a b => TTuple [erase a; erase b]
  | JMaybe t => TMaybe (erase t)
  | JView => TStream
  | JOpaque _ => TStream
  | JEnum _ => TInt false 1
  | JRef n => TRef n
  end.

(** get_type_name: types.hpp:12-102, reflection.hpp:37-38 (the struct name),
    crypto.hpp:108-110, ship_protocol.hpp:20, opaque.hpp:105-108. There is no overload for pairs,
    might_not_exist, transaction_status and recurse_transaction_trace (such a use does not compile). *)
Fixpoint type_name (t : jty) : bytes :=
  match t with
  | JScalar b => builtin_name b
  | JVec t => type_name t ++ str "[]"
  | JOpt t => type_name t ++ str "?"
  | JVariant ts => str "variant" ++ concat (map (fun t => 95 :: type_name t) ts)
  | JStruct n _ => n
  | JView | JOpaque _ => str "bytes"
  | JPair _ _ | JMaybe _ | JEnum _ | JRef _ => []
  end.

(** ** Output streams with layout hooks
    The writers call increase_indent, decrease_indent, write_newline and write_colon. *)
Record jout : Type := {
  jost : Type;
  jwrite : jost -> bytes -> res jost;
  jinc : jost -> jost;
  jdec : jost -> res jost;
  jnl : jost -> res jost;
  jcolon : jost -> res jost
}.
(** stream.hpp:140-155: the hooks of any other stream. *)
Definition plain_out (S : ostream) : jout :=
  {| jost := ost S; jwrite := owrite S; jinc := fun s => s; jdec := fun s => Ok s;
     jnl := fun s => Ok s; jcolon := fun s => owrite S s [58] |}.
(** stream.hpp:157-185 [pretty_stream<S>]; the state is that of [S] and
    current_indent.size(). indent_size is never changed from 4. *)
Definition indent_size : nat := 4.
Definition pretty_out (S : ostream) : jout :=
  {| jost := (ost S * nat)%type;
     jwrite := fun '(s, n) b => let* s := owrite S s b in Ok (s, n);
     jinc := fun '(s, n) => (s, n + indent_size)%nat;
     jdec := fun '(s, n) => let* _ := check (Nat.leb indent_size n) E_overrun in Ok (s, n - indent_size)%nat;
     jnl := fun '(s, n) => let* s := owrite S s [10] in let* s := owrite S s (repeat 32 n) in Ok (s, n);
     jcolon := fun '(s, n) => let* s := owrite S s (str ": ") in Ok (s, n) |}.

(** ** to_json *)
(** The writes of the scalar overloads are one [jwrite] here (the code writes strings and
    hex digits piece by piece; the pieces are contiguous). *)
Section ToJson.
  Context (O : jout) (E : float_lib) (ref : nat -> val -> jost O -> res (jost O)).

  (** to_json.hpp:154-161, 208-214: [pre] is increase_indent before the first element and ','
      before the others, then a new line, then the element. *)
  Definition pre (first : bool) (s : jost O) : res (jost O) :=
    let* s := if first then Ok (jinc O s) else jwrite O s [44] in jnl O s.
  (** to_json.hpp:163-166, 231-234 *)
  Definition post (first : bool) (s : jost O) : res (jost O) :=
    if first then Ok s else let* s := jdec O s in jnl O s.
  Fixpoint write_items (fs : list (jost O -> res (jost O))) (first : bool) (s : jost O) : res (jost O) :=
    match fs with
    | [] => post first s
    | f :: fs' => let* s := pre first s in let* s := f s in write_items fs' false s
    end.
  (** to_json.hpp:215-217: the member name, the colon, the member. *)
  Definition write_member (name : bytes) (f : jost O -> res (jost O)) (s : jost O) : res (jost O) :=
    let* s := jwrite O s (to_json_string name) in
    let* s := jcolon O s in
    f s.

  Fixpoint to_json_with (t : jty) (v : val) (s : jost O) {struct t} : res (jost O) :=
    match t, v with
    | JScalar b, _ => let* x := scalar_to_json E b v in jwrite O s x
    | JVec t', VList l =>                               (* to_json.hpp:149-168 *)
        let* s := jwrite O s [91] in
        let* s := write_items (map (fun x => to_json_with t' x) l) true s in
        jwrite O s [93]
    | JOpt t', VOpt None => jwrite O s (str "null")     (* to_json.hpp:170-177 *)
    | JOpt t', VOpt (Some x) => to_json_with t' x s
    | JVariant ts, VVar i x =>                          (* to_json.hpp:179-192 *)
        match nthz (map (fun t' => (type_name t', to_json_with t')) ts) i with
        | Some (n, f) =>
            let* s := jwrite O s [91] in
            let* s := jnl O (jinc O s) in
            let* s := jwrite O s (to_json_string n) in
            let* s := jwrite O s [44] in
            let* s := jnl O s in
            let* s := f x s in
            let* s := jdec O s in
            let* s := jnl O s in
            jwrite O s [93]
        | None => ill
        end
    | JStruct _ fs, VList l =>                          (* to_json.hpp:202-236 *)
        let* s := jwrite O s [123] in
        let* s := (fix go (fs : list (bytes * jty)) (l : list val) (first : bool) (s : jost O) {struct fs} : res (jost O) :=
                     match fs, l with
                     | [], [] => post first s
                     | f :: fs', x :: l' =>
                         let* s := pre first s in
                         let* s := write_member (fst f) (to_json_with (snd f) x) s in
                         go fs' l' false s
                     | _, _ => ill
                     end) fs l true s in
        jwrite O s [125]
    | JView, VStr d => jwrite O s (to_json_hex d)       (* ship_protocol.hpp:15-18 *)
    | JEnum names, VInt z =>                            (* ship_protocol.hpp:52-61, 78-82 *)
        match nthz names z with
        | Some n => jwrite O s (to_json_string n)
        | None => Err E_unknown_status
        end
    | JRef n, _ => ref n v s                            (* ship_protocol.hpp:349-352 *)
    | (JPair _ _ | JMaybe _ | JOpaque _), _ => Undef "does not compile"
    | _, _ => ill
    end.
End ToJson.
(** Recursive types: [env] gives the type of [JRef n]. [fuel] bounds the nesting of
    recursive types; "stack" is the exhaustion of the native stack. *)
Fixpoint to_json (O : jout) (E : float_lib) (env : nat -> jty) (fuel : nat) : jty -> val -> jost O -> res (jost O) :=
  to_json_with O E (fun n v s => match fuel with
                                 | Datatypes.O => Undef "stack"
                                 | Datatypes.S f => to_json O E env f (env n) v s
                                 end).
(** to_json.hpp:257-266 [convert_to_json] *)
Definition convert_to_json (E : float_lib) (env : nat -> jty) (fuel : nat) (t : jty) (v : val) : res bytes :=
  let* n := to_json (plain_out size_stream) E env fuel t v 0%nat in
  let* (out, room) := to_json (plain_out fixed_buf_stream) E env fuel t v ([], n) in
  let* _ := check (Nat.eqb room 0) E_underrun in
  Ok out.
(** to_json.hpp:268-277 [format_json] *)
Definition format_json (E : float_lib) (env : nat -> jty) (fuel : nat) (t : jty) (v : val) : res bytes :=
  let* (n, _) := to_json (pretty_out size_stream) E env fuel t v (0%nat, 0%nat) in
  let* (st, _) := to_json (pretty_out fixed_buf_stream) E env fuel t v (([], n), 0%nat) in
  let* _ := check (Nat.eqb (snd st) 0) E_underrun in
  Ok (fst st).

(** ** from_json *)
(** Value initialized objects ([= {}] in every struct of the library). *)
Fixpoint default_of (t : ty) : val :=
  match t with
  | TInt _ _ | TVaruint32 | TVarint32 => VInt 0
  | TBool => VBool false
  | TFloat n => VFloat n 0
  | TString | TStream => VStr []
  | TVec _ | TSeq _ | TSet _ | TMap _ _ => VList []
  | TArr n t | TCArr n t => VList (repeat (default_of t) n)
  | TOpt _ => VOpt None
  | TVariant ts => match ts with [] => VVar 0 (VList []) | t :: _ => VVar 0 (default_of t) end
  | TTuple ts => VList (map default_of ts)
  | TMaybe t | TWrap _ t => default_of t
  | TRef _ => VList []
  end.
(** [T x{}]; include/eosio/from_json.hpp:547 [emplace_back()], 559 [emplace()], 567. *)
Definition jdefault (t : jty) : val := default_of (erase t).

(** from_json.hpp:623-635 [from_json_skip_value]. [depth] is a uint64_t. At the end of a
    complete document peek_token gives type_unread for ever. *)
Fixpoint skip_value (ts : list token) (tl : option error) (depth : Z) : res jstream :=
  match ts with
  | [] => match tl with
          | Some e => Err e
          | None => if depth =? 0 then Ok (JS [] None) else Undef "endless loop"
          end
  | t :: ts' =>
      let depth := match t with
                   | TkStartObject | TkStartArray => (depth + 1) mod 2 ^ 64
                   | TkEndObject | TkEndArray => (depth - 1) mod 2 ^ 64
                   | _ => depth
                   end in
      if depth =? 0 then Ok (JS ts' tl) else skip_value ts' tl depth
  end.
(** include/eosio/from_json.hpp:623-635 [from_json_skip_value] *)
Definition from_json_skip_value (s : jstream) : res jstream := skip_value (toks s) (jtail s) 0.

(** from_json.hpp:543-549: the loop of from_json(std::vector&); [f] reads one element. Every
    iteration that continues eats a token: [fuel] is the number of tokens plus one. *)
Fixpoint read_items (f : jstream -> res (val * jstream)) (fuel : nat) (acc : list val) (s : jstream) : res (list val * jstream) :=
  match fuel with
  | O => Undef "fuel"
  | S fuel' =>
      let* t := peek_token s in
      match t with
      | Some TkEndArray => Ok (acc, s)
      | _ => let* (v, s) := f s in read_items f fuel' (acc ++ [v]) s
      end
  end.
(** std::find over the type names (from_json.hpp:580) / for_each_field with [found] (from_json.hpp:644-649): the first match. *)
Fixpoint find_named {A} (k : bytes) (l : list (bytes * A)) (i : Z) : option (Z * A) :=
  match l with
  | [] => None
  | (n, a) :: l' => if beq k n then Some (i, a) else find_named k l' (i + 1)
  end.
(** include/eosio/from_json.hpp:646: the member the callback assigns to. *)
Fixpoint set_nth (l : list val) (i : nat) (v : val) : list val :=
  match l, i with
  | [], _ => []
  | _ :: l', O => v :: l'
  | x :: l', S i' => x :: set_nth l' i' v
  end.
(** from_json.hpp:613-619 [from_json_object] with the callback of 642-652. *)
Fixpoint read_members (ps : list (bytes * (val -> jstream -> res (val * jstream)))) (fuel : nat) (l : list val) (s : jstream)
  : res (list val * jstream) :=
  match fuel with
  | O => Undef "fuel"
  | S fuel' =>
      let* t := peek_token s in
      match t with
      | Some TkEndObject => Ok (l, s)
      | _ =>
          let* (k, s) := get_key s in
          match find_named k ps 0 with
          | Some (i, f) =>
              match nthz l i with
              | Some cur => let* (v, s) := f cur s in read_members ps fuel' (set_nth l (Z.to_nat i) v) s
              | None => ill
              end
          | None => let* s := from_json_skip_value s in read_members ps fuel' l s
          end
      end
  end.
(** A bound on the iterations of include/eosio/from_json.hpp:543-549 and 613-619. *)
Definition fuel_of (s : jstream) : nat := S (List.length (toks s)).

(** include/eosio/from_json.hpp:371-382, 533-585, 640-658: [from_json t cur s] is from_json(obj, stream) where
    [obj], of type [t], holds [cur]. *)
Fixpoint from_json (E : float_lib) (t : jty) (cur : val) (s : jstream) {struct t} : res (val * jstream) :=
  match t with
  | JScalar B_bool => let* (b, s) := get_bool s in Ok (VBool b, s)    (* from_json.hpp:533-537 *)
  | JScalar b => let* (x, s) := get_string s in let* v := scalar_from_text E b x in Ok (v, s)
  | JVec t' =>
      match cur with
      | VList l =>
          let* s := get_start_array s in
          let* (l, s) := read_items (from_json E t' (jdefault t')) (fuel_of s) l s in
          let* s := get_end_array s in
          Ok (VList l, s)
      | _ => ill
      end
  | JOpt t' =>                                                        (* from_json.hpp:554-562 *)
      let* (b, s) := get_null_pred s in
      if b then Ok (VOpt None, s)
      else let* (v, s) := from_json E t' (jdefault t') s in Ok (VOpt (Some v), s)
  | JVariant ts =>                                                    (* from_json.hpp:564-585 *)
      let* s := get_start_array s in
      let* (k, s) := get_string s in
      match find_named k (map (fun t' => (type_name t', from_json E t' (jdefault t'))) ts) 0 with
      | Some (i, f) =>
          let* (v, s) := f s in
          let* s := get_end_array s in
          Ok (VVar i v, s)
      | None => Err E_invalid_type_for_variant
      end
  | JStruct _ fs =>                                                   (* from_json.hpp:640-653 *)
      match cur with
      | VList l =>
          let* s := get_start_object s in
          let* (l, s) := read_members (map (fun f => (fst f, from_json E (snd f))) fs) (fuel_of s) l s in
          let* s := get_end_object s in
          Ok (VList l, s)
      | _ => ill
      end
  | JPair _ _ => Err E_from_json_no_pair                              (* from_json.hpp:655-658 *)
  | JMaybe t' => from_json E t' cur s                                 (* abi.hpp:59-62 *)
  | JView | JOpaque _ | JEnum _ | JRef _ => Undef "does not compile"
  end.
