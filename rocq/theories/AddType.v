(** * AddType: deriving ABI types from C++ types
    include/eosio/abi.hpp:199-289 [abi::add_type] *)
From Verif Require Import Base Abi AbiScalar TypedJson.

(** Scalars whose add_type overload does not compile: the keys and signatures are variants of
    std::array (abi.hpp:251-264 instantiates add_type for the alternatives), the checksums and
    float128 have a std::array member and bytes a std::vector<char> member (:227-230); there is
    no get_type_name for std::array and char. *)
Definition scalar_compiles (b : builtin) : bool :=
  match b with
  | B_public_key | B_private_key | B_signature | B_checksum160 | B_checksum256 | B_checksum512
  | B_float128 | B_bytes => false
  | _ => true
  end.
(** [iter->second], the member [s.fields] of the entry under construction: abi.hpp:226, 229 *)
Definition push_field (n : bytes) (f : bytes * bytes) (m : amap) : res amap :=
  match afind n m with
  | Some (AStruct l) => Ok (aset n (AStruct (l ++ [f])) m)
  | _ => Undef "std::get of another alternative"
  end.
(** [a.abi_types.find(get_type_name(t))]: abi.hpp:234-240. The reflected scalars (name, asset,
    time_point, ...) take the overload of :220-232, which finds the built-in entry of their name.
    Simplification: in an abi which was not filled by convert() the latter would add a struct. *)
Definition find_type (n : bytes) (m : amap) : res (bytes * amap) :=
  match afind n m with Some _ => Ok (n, m) | None => Err E_unknown_type end.

(** abi.hpp:220-289. The result is the pointer (its key) and the updated table; [add_run] below also has
    the table which a failing call leaves behind (Prop_AddFail.v: C62_same_call). The names of vectors, optionals and variants
    are computed at compile time from those of their elements; where these are not constexpr
    (the macro EOSIO_REFLECT) the use does not compile. *)
Fixpoint add_type (t : jty) (m : amap) {struct t} : res (bytes * amap) :=
  match t with
  | JScalar b => if scalar_compiles b then find_type (builtin_name b) m else Undef "does not compile"
  | JView | JOpaque _ => find_type (str "bytes") m                    (* 234-240 *)
  | JStruct n fs =>                                                   (* 220-232 *)
      let (m, inserted) := try_emplace n (AStruct []) m in
      if inserted then
        let* m := (fix go (fs : list (bytes * jty)) (m : amap) {struct fs} : res amap :=
                     match fs with
                     | [] => Ok m
                     | f :: fs' =>
                         let* (p, m) := add_type (snd f) m in
                         let* m := push_field n (fst f, p) m in
                         go fs' m
                     end) fs m in
        Ok (n, m)
      else Ok (n, m)
  | JVec t' =>                                                        (* 242-250 *)
      let* (e, m) := add_type t' m in
      let* d := deref e m in
      let* _ := check (negb (is_optional_array_extension d)) E_invalid_nesting in
      Ok (type_name t, fst (try_emplace (type_name t) (AArray e) m))
  | JVariant ts =>                                                    (* 252-264 *)
      let* (ps, m) := (fix go (ts : list jty) (m : amap) {struct ts} : res (list (bytes * bytes) * amap) :=
                         match ts with
                         | [] => Ok ([], m)
                         | t' :: ts' =>
                             let* (p, m) := add_type t' m in
                             let* (ps, m) := go ts' m in
                             Ok ((p, p) :: ps, m)
                         end) ts m in
      Ok (type_name t, fst (try_emplace (type_name t) (AVariant ps) m))
  | JOpt t' =>                                                        (* 266-274 *)
      let* (e, m) := add_type t' m in
      let* d := deref e m in
      let* _ := check (negb (is_optional_array_extension d)) E_invalid_nesting in
      Ok (type_name t, fst (try_emplace (type_name t) (AOptional e) m))
  | JMaybe t' =>                                                      (* 276-284 *)
      let* (e, m) := add_type t' m in
      let* d := deref e m in
      let* _ := check (negb (is_extension d)) E_invalid_nesting in
      Ok (e ++ str "$", fst (try_emplace (e ++ str "$") (AExtension e) m))
  | JPair _ _ | JEnum _ | JRef _ => Undef "does not compile"
  end.

(** The same code with the table after the call also when it throws: abi.hpp:199-289, 205 ("Exception Safety: basic").
    [run_then]: what follows a call is not done when the call has thrown; the table stays as it is then. *)
Definition run_then {A B} (r : amap * res A) (k : A -> amap -> amap * res B) : amap * res B :=
  match r with
  | (m, Ok a) => k a m
  | (m, Err e) => (m, Err e)
  | (m, Undef w) => (m, Undef w)
  end.
(** abi.hpp:242-250, 266-284: the check of the element type, then the new entry. *)
Definition add_wrapper (kind : adata -> bool) (n : bytes) (d : adata) (e : bytes) (m : amap) : amap * res bytes :=
  match (let* x := deref e m in check (negb (kind x)) E_invalid_nesting) with
  | Ok _ => (fst (try_emplace n d m), Ok n)
  | Err x => (m, Err x)
  | Undef w => (m, Undef w)
  end.
(** abi.hpp:220-289 *)
Fixpoint add_run (t : jty) (m : amap) {struct t} : amap * res bytes :=
  match t with
  | JScalar b => if scalar_compiles b then (m, let* (p, _) := find_type (builtin_name b) m in Ok p) else (m, Undef "does not compile")
  | JView | JOpaque _ => (m, let* (p, _) := find_type (str "bytes") m in Ok p)    (* 234-240 *)
  | JStruct n fs =>                                                   (* 220-232 *)
      let (m, inserted) := try_emplace n (AStruct []) m in
      if inserted then
        (fix go (fs : list (bytes * jty)) (m : amap) {struct fs} : amap * res bytes :=
           match fs with
           | [] => (m, Ok n)
           | f :: fs' =>
               run_then (add_run (snd f) m) (fun p m =>
               match push_field n (fst f, p) m with
               | Ok m => go fs' m
               | Err e => (m, Err e)
               | Undef w => (m, Undef w)
               end)
           end) fs m
      else (m, Ok n)
  | JVec t' => run_then (add_run t' m) (fun e m => add_wrapper is_optional_array_extension (type_name t) (AArray e) e m)      (* 242-250 *)
  | JVariant ts =>                                                    (* 252-264 *)
      run_then ((fix go (ts : list jty) (m : amap) {struct ts} : amap * res (list (bytes * bytes)) :=
                   match ts with
                   | [] => (m, Ok [])
                   | t' :: ts' =>
                       run_then (add_run t' m) (fun p m =>
                       run_then (go ts' m) (fun ps m => (m, Ok ((p, p) :: ps))))
                   end) ts m)
               (fun ps m => (fst (try_emplace (type_name t) (AVariant ps) m), Ok (type_name t)))
  | JOpt t' => run_then (add_run t' m) (fun e m => add_wrapper is_optional_array_extension (type_name t) (AOptional e) e m)   (* 266-274 *)
  | JMaybe t' => run_then (add_run t' m) (fun e m => add_wrapper is_extension (e ++ str "$") (AExtension e) e m)              (* 276-284 *)
  | JPair _ _ | JEnum _ | JRef _ => (m, Undef "does not compile")
  end.
