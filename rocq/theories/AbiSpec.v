(** * AbiSpec: what an ABI definition means (specification vocabulary)

    Independent of the loading algorithm: which names a definition declares,
    which type a type text denotes, and which fields a struct has. *)
From Verif Require Import Base Abi.

(** The type names every ABI has without declaring them. *)
Definition builtin_type_names : list string :=
  ["bool"; "int8"; "uint8"; "int16"; "uint16"; "int32"; "uint32"; "int64"; "uint64"; "int128";
   "uint128"; "varuint32"; "varint32"; "float32"; "float64"; "float128"; "time_point";
   "time_point_sec"; "block_timestamp_type"; "name"; "bytes"; "string"; "checksum160";
   "checksum256"; "checksum512"; "public_key"; "private_key"; "signature"; "symbol";
   "symbol_code"; "asset"]%string.

(** ** Declarations *)
Inductive decl : Set :=
| DBuiltin
| DAlias (target : bytes)
| DStruct (base : bytes) (fields : list (bytes * bytes))     (* (name, type text) *)
| DVariant (types : list bytes).

Inductive declares (a : abi_def) : bytes -> decl -> Prop :=
| declares_builtin s : In s builtin_type_names -> declares a (str s) DBuiltin
| declares_extended_asset :
    declares a (str "extended_asset")
             (DStruct [] [(str "quantity", str "asset"); (str "contract", str "name")])
| declares_type t : In t (ad_types a) -> declares a (new_type_name t) (DAlias (td_type t))
| declares_struct s : In s (ad_structs a) ->
    declares a (sd_name s)
             (DStruct (sd_base s) (map (fun f => (fd_name f, fd_type f)) (sd_fields s)))
| declares_variant v : In v (ad_variants a) -> declares a (vd_name v) (DVariant (vd_types v)).

Definition declared (a : abi_def) (n : bytes) : Prop := exists d, declares a n d.

(** ** Type texts: a declared name, or T?, T[], T$ when not declared as such *)
Definition optional_text (a : abi_def) (t : bytes) : Prop :=
  ~ declared a t /\ exists b, t = b ++ str "?".
Definition array_text (a : abi_def) (t : bytes) : Prop :=
  ~ declared a t /\ exists b, t = b ++ str "[]".
Definition extension_text (a : abi_def) (t : bytes) : Prop :=
  ~ declared a t /\ exists b, t = b ++ str "$".
(** Not an optional, array or extension. *)
Definition plain_text (a : abi_def) (t : bytes) : Prop :=
  ~ optional_text a t /\ ~ array_text a t /\ ~ extension_text a t.

(** [refers_to a n t p]: in at most [n] steps, the type text [t] is found to
    denote the type whose canonical text is [p]. Aliases are followed;
    T? and T[] need a T which is none of optional, array, extension; T$ and
    aliases need a T which is not an extension. *)
Inductive refers_to (a : abi_def) : nat -> bytes -> bytes -> Prop :=
| refers_declared n t d :
    declares a t d -> (forall s, d <> DAlias s) -> refers_to a (S n) t t
| refers_alias n t s p :
    declares a t (DAlias s) -> refers_to a n s p -> ~ extension_text a p -> refers_to a (S n) t p
| refers_optional n b p :
    ~ declared a (b ++ str "?") -> refers_to a n b p -> plain_text a p ->
    refers_to a (S n) (b ++ str "?") (b ++ str "?")
| refers_array n b p :
    ~ declared a (b ++ str "[]") -> refers_to a n b p -> plain_text a p ->
    refers_to a (S n) (b ++ str "[]") (b ++ str "[]")
| refers_extension n b p :
    ~ declared a (b ++ str "$") -> refers_to a n b p -> ~ extension_text a p ->
    refers_to a (S n) (b ++ str "$") (b ++ str "$").

(** The text [t] denotes the type [p]. *)
Definition denotes (a : abi_def) (t p : bytes) : Prop := exists n, refers_to a n t p.

(** ** Members, as (name, type) pairs *)
Definition members_refer (a : abi_def) (n : nat) (ms fs : list (bytes * bytes)) : Prop :=
  Forall2 (fun m f => fst f = fst m /\ refers_to a n (snd m) (snd f)) ms fs.

(** The fields of a struct: those of its base, then its own; [n] bounds the
    inheritance depth and the resolution of the types. *)
Inductive struct_fields (a : abi_def) : nat -> bytes -> list (bytes * bytes) -> Prop :=
| fields_root n name fields own :
    declares a name (DStruct [] fields) -> members_refer a n fields own ->
    struct_fields a (S n) name own
| fields_derived n name base fields b inherited own :
    base <> [] ->
    declares a name (DStruct base fields) ->
    refers_to a n base b -> struct_fields a n b inherited ->
    members_refer a n fields own ->
    struct_fields a (S n) name (inherited ++ own).

(** ** What a loaded type must be *)
Definition described (a : abi_def) (n : bytes) (d : adata) : Prop :=
  match d with
  | ABuiltin b => n = builtin_name b /\ declares a n DBuiltin
  | AAlias p => exists s, declares a n (DAlias s) /\ denotes a s p /\ ~ extension_text a p
  | AOptional p => exists b, n = b ++ str "?" /\ ~ declared a n /\ denotes a b p /\ plain_text a p
  | AArray p => exists b, n = b ++ str "[]" /\ ~ declared a n /\ denotes a b p /\ plain_text a p
  | AExtension p => exists b, n = b ++ str "$" /\ ~ declared a n /\ denotes a b p
                              /\ ~ extension_text a p
  | AStruct fs => exists k, struct_fields a k n fs
  | AVariant fs => exists ts k, declares a n (DVariant ts)
                                /\ members_refer a k (map (fun t => (t, t)) ts) fs
  | AAliasDef _ | AStructDef _ | AVariantDef _ => False        (* refers to the definition *)
  end.

(** The types a loaded type points to. *)
Definition pointers (d : adata) : list bytes :=
  match d with
  | AAlias p | AOptional p | AArray p | AExtension p => [p]
  | AStruct fs | AVariant fs => map snd fs
  | _ => []
  end.

(** A table of loaded types which means what the definition says. *)
Definition faithful (a : abi_def) (m : amap) : Prop :=
  (forall n, declared a n -> afind n m <> None) /\
  (forall n d, afind n m = Some d ->
     described a n d /\
     Forall (fun p => exists e, afind p m = Some e /\ forall q, e <> AAlias q) (pointers d)).

(** ** Well formed definitions *)
Definition declared_names (a : abi_def) : list bytes :=
  map str builtin_type_names ++ [str "extended_asset"] ++
  map new_type_name (ad_types a) ++ map sd_name (ad_structs a) ++ map vd_name (ad_variants a).

(** Every name is non empty and declared once; every alias, struct and variant
    has a meaning. [n] bounds the depth of aliases and inheritance. *)
Record well_formed (a : abi_def) (n : nat) : Prop := {
  names_not_empty : ~ In [] (declared_names a);
  names_distinct : NoDup (declared_names a);
  aliases_resolve : forall t, In t (ad_types a) ->
    exists p, refers_to a n (new_type_name t) p;
  structs_resolve : forall s, In s (ad_structs a) -> exists fs, struct_fields a n (sd_name s) fs;
  variants_resolve : forall v t, In v (ad_variants a) -> In t (vd_types v) ->
    exists p, refers_to a (n - 1) t p
}.

Definition load_errors : list error :=
  [E_recursion_limit_reached; E_invalid_nesting; E_unknown_type; E_missing_name;
   E_redefined_type; E_base_not_a_struct; E_extension_typedef].
