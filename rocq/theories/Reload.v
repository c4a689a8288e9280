(** * Reload: convert(const abi_def&, abi&) into an abi which may already have types, and what it leaves behind
    src/abi.cpp:118-226

    The entries of declared types hold pointers into the definition until they are resolved; the definition is taken
    to outlive the abi (after a successful load nothing points into it, C26). *)
From Verif Require Import Base Abi.

(** ** The table after a step, also when it throws *)
(** src/abi.cpp:135-138, 147-150 *)
Fixpoint get_types_table (d : nat) (l : list (bytes * bytes)) (m : amap) : amap :=
  match l with
  | [] => m
  | (_, t) :: l' => match get_type d m t with Ok (_, m') => get_types_table d l' m' | _ => get_type_table d m t end
  end.
(** src/abi.cpp:118-140 *)
Fixpoint resolve_struct_table (d : nat) (m : amap) (s : struct_def) : amap :=
  match d with
  | O => m
  | S d' =>
    match sd_base s with
    | [] => get_types_table d' (field_pairs (sd_fields s)) m
    | _ =>
      match get_type d' m (sd_base s) with
      | Ok (base, m1) =>
        match deref base m1 with
        | Ok (AStructDef bd) =>
          match resolve_struct d' m1 bd with
          | Ok (fs, m2) => get_types_table d' (field_pairs (sd_fields s)) (aset base (AStruct fs) m2)
          | _ => resolve_struct_table d' m1 bd
          end
        | Ok (AStruct _) => get_types_table d' (field_pairs (sd_fields s)) m1
        | _ => m1
        end
      | _ => get_type_table d' m (sd_base s)
      end
    end
  end.
(** src/abi.cpp:161-177 [fill] at depth 0, then 154-159, 118-140 or 143-152 *)
Definition fill_table (m : amap) (k : bytes) : amap :=
  match fill 32 m k with
  | Ok m' => m'
  | _ =>
    match deref k m with
    | Ok (AAliasDef t) => get_type_table 31 m t
    | Ok (AStructDef s) => resolve_struct_table 32 m s
    | Ok (AVariantDef v) => get_types_table 31 (variant_pairs (vd_types v)) m
    | _ => m
    end
  end.
(** src/abi.cpp:223-225 *)
Fixpoint fill_all_run (ks : list bytes) (m : amap) : amap * res unit :=
  match ks with
  | [] => (m, Ok tt)
  | k :: ks' => match fill 32 m k with
                | Ok m' => fill_all_run ks' m'
                | Err e => (fill_table m k, Err e)
                | Undef w => (fill_table m k, Undef w)
                end
  end.
(** src/abi.cpp:202-222 *)
Fixpoint declare_run (l : list (bytes * adata)) (m : amap) : amap * res unit :=
  match l with
  | [] => (m, Ok tt)
  | (k, d) :: l' =>
    if beq k [] then (m, Err E_missing_name)
    else match try_emplace k d m with
         | (m', true) => declare_run l' m'
         | (m', false) => (m', Err E_redefined_type)
         end
  end.
(** src/abi.cpp:191-200: the built-in types, unless the abi has them *)
Definition emplace_initial (m : amap) : amap :=
  fst (try_emplace (str "extended_asset")
         (AStruct [(str "quantity", str "asset"); (str "contract", str "name")])
         (emplace_builtins builtins m)).
(** include/eosio/abi.hpp:197-209: [abi c;] *)
Definition empty_loaded : abi := Abi [] [] [].
(** src/abi.cpp:186-226: the abi after the call and whether the call threw *)
Definition convert_run (a : abi_def) (c : abi) : abi * res unit :=
  let actions := fold_left (fun m x => zset (ac_name x) (ac_type x) m) (ad_actions a) (action_types c) in
  let tables := fold_left (fun m x => zset (tb_name x) (tb_type x) m) (ad_tables a) (table_types c) in
  match declare_run (declarations a) (emplace_initial (abi_types c)) with
  | (m, Ok _) => let (m', r) := fill_all_run (map fst m) m in (Abi actions tables m', r)
  | (m, Err e) => (Abi actions tables m, Err e)
  | (m, Undef w) => (Abi actions tables m, Undef w)
  end.
