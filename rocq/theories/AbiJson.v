(** * ABI driven conversion JSON -> binary: src/abieos.hpp:199-268, 470-878

    Two converters: the ordered one reads the JSON tokens directly, the reorderable one
    first builds a document in memory. Both keep a stack of the structs, arrays and
    variants being converted and run a loop which advances the top entry. Every call a
    serializer makes to another serializer is in tail position, so it is one step of the
    machine: [JCall] is a pending call with start = true, [JLoop] is the head of the loop. *)
From Verif Require Import Base Stream TypedBin Json JsonSpec Keys Abi AbiScalar Machine AbiBin.

(** Indexing a std::vector outside its range (src/abieos.hpp:635, 783, 800, 806, 873). *)
Definition no_field {A} : res A := Undef "vector index out of range".

(** std::find_if on the names of the alternatives: src/abieos.hpp:704-705, 866-867 *)
Fixpoint find_name (name : bytes) (fs : list (bytes * bytes)) (i : Z) : option (Z * bytes) :=
  match fs with
  | [] => None
  | (n, q) :: fs' => if beq n name then Some (i, q) else find_name name fs' (i + 1)
  end.

(** ** Ordered converter *)
(** json_to_bin_stack_entry, src/abieos.hpp:216-222 *)
Record jframe := JF { jf_type : bytes; jf_ext : bool; jf_pos : Z; jf_size_index : nat; jf_variant : Z }.
(** json_to_bin_state, src/abieos.hpp:264-273; a size_insertion (:199-202) is a pair *)
Record jstate := JSt { j_in : jstream; j_out : bytes; j_sizes : list (nat * Z); j_stack : list jframe; j_skip : bool }.
(** The state between two calls of the serializers: inside [json_to_bin(..., start = true)] or in the loop src/abieos.hpp:750-757. *)
Inductive jconfig := JCall (ext : bool) (p : bytes) (s : jstate) | JLoop (s : jstate).

(** Taking tokens from the stream which is the state itself (src/abieos.hpp:264 json_to_bin_state : json_token_stream). *)
Definition set_in (s : jstate) (i : jstream) : jstate := JSt i (j_out s) (j_sizes s) (j_stack s) (j_skip s).
(** [state.stack] push_back and pop_back (src/abieos.hpp:777, 793, 821, 832, 848, 858). *)
Definition set_stack (s : jstate) (k : list jframe) : jstate := JSt (j_in s) (j_out s) (j_sizes s) k (j_skip s).
(** [state.writer.write] (src/abieos.hpp:264-273). *)
Definition set_out (s : jstate) (o : bytes) : jstate := JSt (j_in s) o (j_sizes s) (j_stack s) (j_skip s).
(** [++stack_entry.position] (src/abieos.hpp:788, 798, 835, 852). *)
Definition at_pos (f : jframe) (pos : Z) : jframe := JF (jf_type f) (jf_ext f) pos (jf_size_index f) (jf_variant f).

(** src/abieos.hpp:780-812: the part of the struct serializer after [if (start)], for the
    entry [f] on top of [rest] *)
Definition jobject (m : amap) (fields : list (bytes * bytes)) (f : jframe) (rest : list jframe) (s : jstate) : res jconfig :=
  let size := Z.of_nat (List.length fields) in
  let* (ended, i) := get_end_object_pred (j_in s) in
  if ended then
    if jf_pos f + 1 =? size then Ok (JLoop (set_stack (set_in s i) rest))
    else match nthz fields (jf_pos f + 1) with
         | None => no_field
         | Some (_, q) =>
             let* x := is_ext_type m q in
             let* _ := check (x && jf_ext f) E_expected_field in
             Ok (JLoop (JSt i (j_out s) (j_sizes s) rest true))
         end
  else
    let* (key, i) := maybe_get_key i in
    match key with
    | Some k =>
        let pos := jf_pos f + 1 in
        let* _ := check (negb ((size <=? pos) || j_skip s)) E_unexpected_field in
        match nthz fields pos with
        | None => no_field
        | Some (name, _) =>
            let* _ := check (beq k name) E_expected_field in
            Ok (JLoop (set_stack (set_in s i) (at_pos f pos :: rest)))
        end
    | None =>
        match nthz fields (jf_pos f) with
        | None => no_field
        | Some (_, q) => Ok (JCall (jf_ext f && (jf_pos f =? size - 1)) q (set_stack (set_in s i) (f :: rest)))
        end
    end.

(** ser->json_to_bin(state, allow_extensions, type, start = true): src/abieos.hpp:718-732 and
    350-360 built-in types, 598-607 optional, 609-614 extension, 772-779 struct, 817-826 array,
    844-850 variant *)
Definition jcall (E : float_lib) (m : amap) (ext : bool) (p : bytes) (s : jstate) : res jconfig :=
  let* d := deref p m in
  match d with
  | ABuiltin B_bool =>
      let* (b, i) := get_bool (j_in s) in
      let* o := to_bin vector_stream key_env 0 TBool (VBool b) (j_out s) in
      Ok (JLoop (set_out (set_in s i) o))
  | ABuiltin b =>
      let* (t, i) := get_string (j_in s) in
      let* o := scalar_write E b t (j_out s) in
      Ok (JLoop (set_out (set_in s i) o))
  | AOptional q =>
      let* (null, i) := get_null_pred (j_in s) in
      if null then Ok (JLoop (set_out (set_in s i) (j_out s ++ [0])))
      else Ok (JCall ext q (set_out (set_in s i) (j_out s ++ [1])))
  | AExtension q => Ok (JCall ext q s)
  | AStruct fields =>
      let* i := get_start_object (j_in s) in
      jobject m fields (JF p ext (-1) 0 0) (j_stack s) (set_in s i)
  | AArray _ =>
      let* i := get_start_array (j_in s) in
      Ok (JLoop (JSt i (j_out s) (j_sizes s ++ [(List.length (j_out s), 0)])
                     (JF p false (-1) (List.length (j_sizes s)) 0 :: j_stack s) (j_skip s)))
  | AVariant _ =>
      let* i := get_start_array (j_in s) in
      Ok (JLoop (set_stack (set_in s i) (JF p ext (-1) 0 0 :: j_stack s)))
  | AAliasDef _ | AStructDef _ | AVariantDef _ | AAlias _ => no_serializer
  end.

(** [size_insertions[i].size = n], src/abieos.hpp:831 *)
Fixpoint set_size (l : list (nat * Z)) (i : nat) (n : Z) : list (nat * Z) :=
  match l, i with
  | [], _ => []
  | (p, _) :: l', O => (p, n) :: l'
  | x :: l', S i' => x :: set_size l' i' n
  end.

(** start = false: 780-812 struct, 827-840 array, 851-878 variant *)
Definition jadvance (E : float_lib) (m : amap) (f : jframe) (rest : list jframe) (s : jstate) : res jconfig :=
  let* d := deref (jf_type f) m in
  match d with
  | AStruct fields => jobject m fields f rest s
  | AArray q =>
      let* (ended, i) := get_end_array_pred (j_in s) in
      if ended then
        Ok (JLoop (JSt i (j_out s) (set_size (j_sizes s) (jf_size_index f) ((jf_pos f + 1) mod 2 ^ 32)) rest (j_skip s)))
      else
        let* _ := if jf_pos f + 1 <? 2 ^ 31 then Ok tt else Undef "signed overflow" in
        Ok (JCall false q (set_stack (set_in s i) (at_pos f (jf_pos f + 1) :: rest)))
  | AVariant fields =>
      let pos := jf_pos f + 1 in
      let* (ended, i) := get_end_array_pred (j_in s) in
      if ended then
        let* _ := check (pos =? 2) E_expected_variant in
        Ok (JLoop (set_stack (set_in s i) rest))
      else if pos =? 0 then
        let* (name, i) := get_string i in
        match find_name name fields 0 with
        | None => Err E_invalid_type_for_variant
        | Some (index, _) =>
            let* o := varuint32_to_bin vector_stream index (j_out s) in
            Ok (JLoop (JSt i o (j_sizes s) (JF (jf_type f) (jf_ext f) pos (jf_size_index f) index :: rest) (j_skip s)))
        end
      else if pos =? 1 then
        match nthz fields (jf_variant f) with
        | None => no_field
        | Some (_, q) => Ok (JCall (jf_ext f) q (set_stack (set_in s i) (at_pos f pos :: rest)))
        end
      else Err E_expected_variant
  | _ => no_serializer
  end.

(** src/abieos.hpp:761-767: the sizes are inserted into the bytes *)
Fixpoint splice (out : bytes) (pos : nat) (sizes : list (nat * Z)) (bin : bytes) : res bytes :=
  match sizes with
  | [] => Ok (bin ++ skipn pos out)
  | (p, n) :: sizes' =>
      let* bin := varuint32_to_bin vector_stream n (bin ++ firstn (p - pos) (skipn pos out)) in
      splice out p sizes' bin
  end.

(** One iteration of the loop of src/abieos.hpp:750-757, then 758-767 *)
Definition jstep (E : float_lib) (m : amap) (bin : bytes) (c : jconfig) : res (jconfig + bytes) :=
  match c with
  | JCall ext p s => let* c' := jcall E m ext p s in Ok (inl c')
  | JLoop s =>
      match j_stack s with
      | [] =>
          let* _ := check (at_end (j_in s)) E_expected_end in
          let* r := splice (j_out s) 0 (j_sizes s) bin in Ok (inr r)
      | f :: rest =>
          let* _ := check (Nat.leb (List.length (f :: rest)) max_stack_size) E_recursion_limit_reached in
          let* c' := jadvance E m f rest s in Ok (inl c')
      end
  end.
(** json_to_bin(bin, type, json, f), src/abieos.hpp:739-768: appends to [bin] *)
Definition json_to_bin (E : float_lib) (m : amap) (p : bytes) (json : bytes) (bin : bytes) (r : res bytes) : Prop :=
  exec (jstep E m bin) (JCall true p (JSt (open_json json) [] [] [] false)) r.

(** ** Reorderable converter *)
(** *** json_to_jvalue, src/abieos.hpp:469-571: the stack of containers under construction.
    A jvalue (:185-191) is a [jv] without numbers: rapidjson passes numbers as strings; a
    jobject is a std::map, only its contents by key matter. *)
Inductive jpart := PObj (done : list (bytes * jv)) (key : bytes) | PArr (done : list jv).
(** std::map<std::string, jvalue>::operator[] = (src/abieos.hpp:545); here not sorted, a new key goes to the end. *)
Fixpoint oset (k : bytes) (x : jv) (l : list (bytes * jv)) : list (bytes * jv) :=
  match l with
  | [] => [(k, x)]
  | (k', y) :: l' => if beq k' k then (k', x) :: l' else (k', y) :: oset k x l'
  end.
(** std::map::find (src/abieos.hpp:637). *)
Fixpoint ofind (k : bytes) (l : list (bytes * jv)) : option jv :=
  match l with [] => None | (k', y) :: l' => if beq k' k then Some y else ofind k l' end.
(** A value [x] is complete (src/abieos.hpp:535, 545, 562, 568): [inr] when it is the root. *)
Definition plug (stk : list jpart) (x : jv) : list jpart + jv :=
  match stk with
  | [] => inr x
  | PObj d k :: r => inl (PObj (oset k x d) k :: r)
  | PArr d :: r => inl (PArr (d ++ [x]) :: r)
  end.
(** receive_event, src/abieos.hpp:472-506, with json_to_jobject (:524-549) and json_to_jarray
    (:551-571). [None]: returns false. The C++ stack holds the open containers and, for a
    value, one more entry; both are checked against the limit. *)
Definition jv_event (stk : list jpart) (t : token) : option (list jpart + jv) :=
  if Nat.ltb max_stack_size (List.length stk) then None
  else
    let value (r : list jpart + jv) := if Nat.ltb max_stack_size (S (List.length stk)) then None else Some r in
    match t, stk with
    | TkKey k, PObj d _ :: r => Some (inl (PObj d k :: r))
    | TkEndObject, PObj d _ :: r => Some (plug r (JObj d))
    | TkEndArray, PArr d :: r => Some (plug r (JArr d))
    | TkNull, _ => value (plug stk JNull)
    | TkBool b, _ => value (plug stk (JBool b))
    | TkString s, _ => value (plug stk (JStr s))
    | TkStartObject, _ => value (inl (PObj [] [] :: stk))
    | TkStartArray, _ => value (inl (PArr [] :: stk))
    | _, _ => None
    end.
(** All events one after the other (src/abieos.hpp:519-521); the parse is complete with the root. *)
Fixpoint jv_events (stk : list jpart) (ts : list token) : option jv :=
  match ts with
  | [] => None
  | t :: ts' =>
      match jv_event stk t with
      | None => None
      | Some (inl stk') => jv_events stk' ts'
      | Some (inr x) => match ts' with [] => Some x | _ => None end
      end
  end.
(** src/abieos.hpp:508-522: any failure of the parser or of the handler is one error *)
Definition json_to_jvalue (json : bytes) : res jv :=
  match tokenize json with
  | (ts, None) => match jv_events [] ts with Some x => Ok x | None => Err E_unspecific_syntax_error end
  | (_, Some _) => Err E_unspecific_syntax_error
  end.

(** *** jvalue_to_bin_stack_entry, src/abieos.hpp:209-214; jvalue_to_bin_state, :238-262 *)
Record rframe := RF { rf_type : bytes; rf_ext : bool; rf_value : jv; rf_pos : Z }.
(** src/abieos.hpp:238-262 jvalue_to_bin_state without the received value, which is an argument. *)
Record rstate := RSt { r_out : bytes; r_stack : list rframe; r_skip : bool }.
(** As [jconfig], for src/abieos.hpp:587-596. *)
Inductive rconfig := RCall (ext : bool) (p : bytes) (x : jv) (s : rstate) | RLoop (s : rstate).
(** std::get of another alternative (src/abieos.hpp:636, 668, 700). *)
Definition bad_variant {A} : res A := Undef "bad_variant_access".

(** src/abieos.hpp:626-654 for the entry [f] on top of [rest] *)
Definition robject (m : amap) (fields : list (bytes * bytes)) (f : rframe) (rest : list rframe) (s : rstate) : res rconfig :=
  let size := Z.of_nat (List.length fields) in
  let pos := rf_pos f + 1 in
  let f' := RF (rf_type f) (rf_ext f) (rf_value f) pos in
  if pos =? size then Ok (RLoop (RSt (r_out s) rest (r_skip s)))
  else match nthz fields pos, rf_value f with
       | None, _ => no_field
       | Some (name, q), JObj obj =>
           match ofind name obj with
           | None =>
               let* x := is_ext_type m q in
               let* _ := check (x && rf_ext f) E_expected_field in
               Ok (RLoop (RSt (r_out s) (f' :: rest) true))
           | Some y =>
               let* _ := check (negb (r_skip s)) E_unexpected_field in
               Ok (RCall (rf_ext f && (pos =? size - 1)) q y (RSt (r_out s) (f' :: rest) (r_skip s)))
           end
       | _, _ => bad_variant
       end.
(** src/abieos.hpp:667-681 *)
Definition rarray (q : bytes) (f : rframe) (rest : list rframe) (s : rstate) : res rconfig :=
  match rf_value f with
  | JArr l =>
      let pos := rf_pos f + 1 in
      if pos =? Z.of_nat (List.length l) then Ok (RLoop (RSt (r_out s) rest (r_skip s)))
      else match nthz l pos with
           | None => no_field
           | Some y => Ok (RCall false q y (RSt (r_out s) (RF (rf_type f) (rf_ext f) (rf_value f) pos :: rest) (r_skip s)))
           end
  | _ => bad_variant
  end.
(** start = true: src/abieos.hpp:718-732 and 350-360 built-in types, 598-607 optional,
    609-614 extension, 616-625 struct, 656-666 array, 683-698 variant *)
Definition rcall (E : float_lib) (m : amap) (ext : bool) (p : bytes) (x : jv) (s : rstate) : res rconfig :=
  let* d := deref p m in
  match d with
  | ABuiltin B_bool =>
      match x with
      | JBool b =>
          let* o := to_bin vector_stream key_env 0 TBool (VBool b) (r_out s) in
          Ok (RLoop (RSt o (r_stack s) (r_skip s)))
      | _ => Err E_expected_bool
      end
  | ABuiltin b =>
      match x with
      | JStr t => let* o := scalar_write E b t (r_out s) in Ok (RLoop (RSt o (r_stack s) (r_skip s)))
      | _ => Err E_expected_string
      end
  | AOptional q =>
      match x with
      | JNull => Ok (RLoop (RSt (r_out s ++ [0]) (r_stack s) (r_skip s)))
      | _ => Ok (RCall ext q x (RSt (r_out s ++ [1]) (r_stack s) (r_skip s)))
      end
  | AExtension q => Ok (RCall ext q x s)
  | AStruct fields =>
      match x with
      | JObj _ => robject m fields (RF p ext x (-1)) (r_stack s) s
      | _ => Err E_expected_start_object
      end
  | AArray q =>
      match x with
      | JArr l =>
          let* o := varuint32_to_bin vector_stream (Z.of_nat (List.length l)) (r_out s) in
          rarray q (RF p false x (-1)) (r_stack s) (RSt o (r_stack s) (r_skip s))
      | _ => Err E_expected_start_array
      end
  | AVariant _ =>
      match x with
      | JArr [JStr _; _] => Ok (RLoop (RSt (r_out s) (RF p ext x 0 :: r_stack s) (r_skip s)))
      | _ => Err E_expected_variant
      end
  | AAliasDef _ | AStructDef _ | AVariantDef _ | AAlias _ => no_serializer
  end.
(** start = false: src/abieos.hpp:626-654 struct, 667-681 array, 699-716 variant *)
Definition radvance (m : amap) (f : rframe) (rest : list rframe) (s : rstate) : res rconfig :=
  let* d := deref (rf_type f) m in
  match d with
  | AStruct fields => robject m fields f rest s
  | AArray q => rarray q f rest s
  | AVariant fields =>
      match rf_value f with
      | JArr [JStr name; y] =>
          if rf_pos f =? 0 then
            match find_name name fields 0 with
            | None => Err E_invalid_type_for_variant
            | Some (i, q) =>
                let* o := varuint32_to_bin vector_stream i (r_out s) in
                Ok (RCall (rf_ext f) q y (RSt o (RF (rf_type f) (rf_ext f) (rf_value f) 1 :: rest) (r_skip s)))
            end
          else Ok (RLoop (RSt (r_out s) rest (r_skip s)))
      | _ => bad_variant
      end
  | _ => no_serializer
  end.
(** One iteration of the loop of src/abieos.hpp:590-596 *)
Definition rstep (E : float_lib) (m : amap) (c : rconfig) : res (rconfig + bytes) :=
  match c with
  | RCall ext p x s => let* c' := rcall E m ext p x s in Ok (inl c')
  | RLoop s =>
      match r_stack s with
      | [] => Ok (inr (r_out s))
      | f :: rest => let* c' := radvance m f rest s in Ok (inl c')
      end
  end.
(** json_to_bin(bin, type, value, f), src/abieos.hpp:587-596: appends to [bin] *)
Definition jvalue_to_bin (E : float_lib) (m : amap) (p : bytes) (x : jv) (bin : bytes) (r : res bytes) : Prop :=
  exec (rstep E m) (RCall true p x (RSt bin [] false)) r.
(** src/abi.cpp:279-285 abi_type::json_to_bin_reorderable: json_to_jvalue, then json_to_bin *)
Definition json_to_bin_reorderable (E : float_lib) (m : amap) (p : bytes) (json : bytes) (bin : bytes) (r : res bytes) : Prop :=
  match json_to_jvalue json with
  | Ok x => jvalue_to_bin E m p x bin r
  | Err e => r = Err e
  | Undef w => r = Undef w
  end.
