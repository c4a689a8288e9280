(** * ReloadSpec: vocabulary for loading several definitions into one abi (C64; specification) *)
From Verif Require Import Base Abi AbiSpec Reload.

(** One definition with all that two definitions say. *)
Definition merge (a b : abi_def) : abi_def :=
  AbiDef (ad_version a) (ad_types a ++ ad_types b) (ad_structs a ++ ad_structs b) (ad_actions a ++ ad_actions b) (ad_tables a ++ ad_tables b)
         (ad_clauses a ++ ad_clauses b) (ad_errors a ++ ad_errors b) (ad_extensions a ++ ad_extensions b) (ad_variants a ++ ad_variants b).
(** The names a definition brings: of its type aliases, of its structs, of its variants. *)
Definition own_names (b : abi_def) : list bytes :=
  map new_type_name (ad_types b) ++ map sd_name (ad_structs b) ++ map vd_name (ad_variants b).
(** The definition with only the first [k] of these; its actions and tables are all kept. *)
Definition first_declarations (k : nat) (b : abi_def) : abi_def :=
  let k2 := (k - List.length (ad_types b))%nat in
  let k3 := (k2 - List.length (ad_structs b))%nat in
  AbiDef (ad_version b) (firstn k (ad_types b)) (firstn k2 (ad_structs b)) (ad_actions b) (ad_tables b)
         (ad_clauses b) (ad_errors b) (ad_extensions b) (firstn k3 (ad_variants b)).
(** Names an abi can take: not empty, not of a built-in type, not in the table of the abi, each once. *)
Definition new_names (c : abi) (ns : list bytes) : Prop :=
  Forall (fun n => n <> [] /\ ~ In n (str "extended_asset" :: map str builtin_type_names) /\ afind n (abi_types c) = None) ns /\ NoDup ns.
(** [takes c b k]: up to the first which is not new, [b] brings [k] names. *)
Definition takes (c : abi) (b : abi_def) (k : nat) : Prop :=
  (k <= List.length (own_names b))%nat /\ new_names c (firstn k (own_names b)) /\
  (k < List.length (own_names b) -> ~ new_names c (firstn (S k) (own_names b)))%nat.
(** [history a c r]: an abi into which definitions were loaded one after the other, with lookups of types in between,
    any of them failing; [r] is the result of the last load, [a] is all that was taken of the definitions. *)
Inductive history : abi_def -> abi -> res unit -> Prop :=
| first_load b k c r : convert_run b empty_loaded = (c, r) -> takes empty_loaded b k -> history (first_declarations k b) c r
| next_load a c r b k c' r' : history a c r -> convert_run b c = (c', r') -> takes c b k -> history (merge a (first_declarations k b)) c' r'
| lookup a c r t : history a c r -> history a (abi_looked_up c t) r.
(** A type of a definition which is not resolved yet. *)
Definition pending (a : abi_def) (n : bytes) (d : adata) : Prop :=
  match d with
  | AAliasDef s => declares a n (DAlias s)
  | AStructDef s => declares a n (DStruct (sd_base s) (map (fun f => (fd_name f, fd_type f)) (sd_fields s)))
  | AVariantDef v => declares a n (DVariant (vd_types v))
  | _ => False
  end.
(** A table in which every type is what the definition says or still to be resolved. *)
Definition partly_faithful (a : abi_def) (m : amap) : Prop :=
  (forall n, declared a n -> afind n m <> None) /\
  (forall n d, afind n m = Some d -> (described a n d \/ pending a n d) /\ Forall (fun p => afind p m <> None) (pointers d)).
