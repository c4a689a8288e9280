(** * SizeSpec: vocabulary for how far conversions can blow up their input (C61; specification) *)
From Verif Require Import Base Abi AbiScalar AbiValue.

(** No struct consists of nothing but extension fields. *)
Definition solid (m : amap) : Prop := forall p fs, afind p m = Some (AStruct fs) -> Exists (fun f => ~ extension_type m (snd f)) fs.
(** No field and no alternative has a longer name. *)
Definition names_up_to (n : nat) (m : amap) : Prop := forall p fs, afind p m = Some (AStruct fs) \/ afind p m = Some (AVariant fs) -> Forall (fun f => (List.length (fst f) <= n)%nat) fs.

(** ** Definitions for which the bounds do not hold *)
(** s000 {}, s001 { a: s000, b: s000 }, s002 { a: s001, b: s001 }, ... *)
Definition bomb_name (n : nat) : bytes := let z := Z.of_nat n in [115; 48 + z / 100; 48 + z / 10 mod 10; 48 + z mod 10].
Definition bomb_fields (n : nat) : list (bytes * bytes) :=
  match n with O => [] | S k => [(str "a", bomb_name k); (str "b", bomb_name k)] end.
Definition bomb_abi (n : nat) : abi_def :=
  AbiDef (str "eosio::abi/1.1") []
    (map (fun i => StructDef (bomb_name i) [] (map (fun f => FieldDef (fst f) (snd f)) (bomb_fields i))) (seq 0 (S n)))
    [] [] [] [] [] [].
(** e {} *)
Definition empty_abi : abi_def := AbiDef (str "eosio::abi/1.1") [] [StructDef (str "e") [] []] [] [] [] [] [] [].
(** s000 { a: uint8 }, s001 { a: s000, a: s000 }, s002 { a: s001, a: s001 }, ...: the two fields have the same name. *)
Definition twin_fields (n : nat) : list (bytes * bytes) :=
  match n with O => [(str "a", str "uint8")] | S k => [(str "a", bomb_name k); (str "a", bomb_name k)] end.
Definition twin_abi (n : nat) : abi_def :=
  AbiDef (str "eosio::abi/1.1") []
    (map (fun i => StructDef (bomb_name i) [] (map (fun f => FieldDef (fst f) (snd f)) (twin_fields i))) (seq 0 (S n)))
    [] [] [] [] [] [].
(** {"a":{"a":...{"a":7}...}} *)
Fixpoint twin_text (n : nat) : bytes := match n with O => str "{""a"":7}" | S k => str "{""a"":" ++ twin_text k ++ str "}" end.
