(** * LoadFault: which fault of a definition each loading error names (specification vocabulary)

    Independent of the loading algorithm. Each error says what is wrong with
    a type text, a struct or a name of the definition. *)
From Verif Require Import Base Abi AbiSpec.

(** To find the type a text denotes one has to find the type of another text:
    the target of an alias, or the text before [?], [\[\]] or [$]. *)
Inductive needs (a : abi_def) : bytes -> bytes -> Prop :=
| needs_target t s : declares a t (DAlias s) -> needs a t s
| needs_optional b : ~ declared a (b ++ str "?") -> needs a (b ++ str "?") b
| needs_element b : ~ declared a (b ++ str "[]") -> needs a (b ++ str "[]") b
| needs_extended b : ~ declared a (b ++ str "$") -> needs a (b ++ str "$") b.

(** [text_fault a e n t]: the error [e] is about the text [t], or a text reached
    from it in less than [n] steps of [needs]; [n] steps are too many. *)
Inductive text_fault (a : abi_def) : error -> nat -> bytes -> Prop :=
| fault_too_deep t : text_fault a E_recursion_limit_reached 0 t
| fault_behind e n t u : needs a t u -> text_fault a e n u -> text_fault a e (S n) t
| fault_unknown n t : ~ declared a t -> (forall u, ~ needs a t u) -> text_fault a E_unknown_type (S n) t
| fault_optional n b p : ~ declared a (b ++ str "?") -> denotes a b p -> ~ plain_text a p ->
    text_fault a E_invalid_nesting (S n) (b ++ str "?")
| fault_array n b p : ~ declared a (b ++ str "[]") -> denotes a b p -> ~ plain_text a p ->
    text_fault a E_invalid_nesting (S n) (b ++ str "[]")
| fault_extension n b p : ~ declared a (b ++ str "$") -> denotes a b p -> extension_text a p ->
    text_fault a E_invalid_nesting (S n) (b ++ str "$")
| fault_alias n t s p : declares a t (DAlias s) -> denotes a s p -> extension_text a p ->
    text_fault a E_extension_typedef (S n) t.

(** The same for a struct: its base text, the base itself, its fields. *)
Inductive struct_fault (a : abi_def) : error -> nat -> bytes -> Prop :=
| struct_too_deep name base fields : declares a name (DStruct base fields) ->
    struct_fault a E_recursion_limit_reached 0 name
| struct_base_text e n name base fields : declares a name (DStruct base fields) -> base <> [] ->
    text_fault a e n base -> struct_fault a e (S n) name
| struct_base e n name base fields b : declares a name (DStruct base fields) -> base <> [] ->
    denotes a base b -> struct_fault a e n b -> struct_fault a e (S n) name
| struct_base_not_a_struct n name base fields b : declares a name (DStruct base fields) -> base <> [] ->
    denotes a base b -> (forall x fs, ~ declares a b (DStruct x fs)) -> struct_fault a E_base_not_a_struct (S n) name
| struct_field e n name base fields f t : declares a name (DStruct base fields) -> In (f, t) fields ->
    text_fault a e n t -> struct_fault a e (S n) name.

(** A definition has the fault [e] about its types. *)
Definition type_fault (a : abi_def) (e : error) : Prop :=
  (exists n s, declares a n (DAlias s) /\ text_fault a e 32 n) \/
  (exists n, struct_fault a e 32 n) \/
  (exists n ts t, declares a n (DVariant ts) /\ In t ts /\ text_fault a e 31 t).

Definition fault (a : abi_def) (e : error) : Prop :=
  (e = E_missing_name /\ In [] (declared_names a)) \/
  (e = E_redefined_type /\ ~ NoDup (declared_names a)) \/
  (NoDup (declared_names a) /\ type_fault a e).
