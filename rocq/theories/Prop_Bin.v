(** * Properties C01-C05: varints, native binary format, two-pass conversion.
    Models: Stream.v, TypedBin.v. Vocabulary: [leb_value], [leb_shape] (StreamFacts.v),
    [wf], [ty_ok], [decode_errors], [decode_hazards] (TypedSpec.v). *)
From Verif Require Import Base Stream StreamFacts TypedBin TypedSpec BinLemmas.
From Verif Require TypedBinFacts.

(** ** C01 *)
Theorem C01_varuint32_roundtrip : forall v rest,
  0 <= v < 2 ^ 32 -> bytes_ok rest ->
  exists bin,
    varuint32_to_bin vector_stream v [] = Ok bin /\
    varuint32_from_bin (bin ++ rest) = Ok (v, rest) /\
    varuint64_from_bin (bin ++ rest) = Ok (v, rest) /\
    (1 <= List.length bin <= 5)%nat /\
    (forall other, bytes_ok other -> varuint32_from_bin other = Ok (v, []) ->
       (List.length bin <= List.length other)%nat).
Proof. exact varuint32_roundtrip_full. Qed.
Print Assumptions C01_varuint32_roundtrip.

Theorem C01_varuint32_too_big : forall S v s,
  2 ^ 32 <= v < 2 ^ 64 -> varuint32_to_bin S v s = Err E_varuint_too_big.
Proof. exact varuint32_writer_rejects. Qed.
Print Assumptions C01_varuint32_too_big.

Theorem C01_varint32_roundtrip : forall v rest,
  - 2 ^ 31 <= v < 2 ^ 31 -> bytes_ok rest ->
  exists bin,
    varint32_to_bin vector_stream v [] = Ok bin /\
    varint32_from_bin (bin ++ rest) = Ok (v, rest) /\
    (1 <= List.length bin <= 5)%nat /\
    varuint32_from_bin (bin ++ rest) = Ok (if v <? 0 then -2 * v - 1 else 2 * v, rest).
Proof. exact varint32_roundtrip_full. Qed.
Print Assumptions C01_varint32_roundtrip.

Example C01_example :
  varuint32_to_bin vector_stream 300 [] = Ok [172; 2] /\
  varuint32_from_bin [172; 2; 7] = Ok (300, [7]) /\
  varint32_to_bin vector_stream (-2147483648) [] = Ok [255; 255; 255; 255; 15] /\
  varint32_from_bin [255; 255; 255; 255; 15] = Ok (-2147483648, []).
Proof. vm_compute. auto. Qed.

(** ** C02: both readers on every buffer. *)
Theorem C02_varuint_readers : forall bits maxn f s,
  (f = varuint32_from_bin /\ bits = 32 /\ maxn = 5%nat) \/
  (f = varuint64_from_bin /\ bits = 64 /\ maxn = 10%nat) ->
  bytes_ok s ->
  (forall v r, f s = Ok (v, r) <->
     exists p, s = p ++ r /\ leb_shape p /\ (List.length p <= maxn)%nat /\ v = leb_value p mod 2 ^ bits) /\
  (f s = Err E_overrun <-> (List.length s < maxn)%nat /\ Forall (fun b => 128 <= b) s) /\
  (f s = Err E_invalid_varuint_encoding <->
     (maxn <= List.length s)%nat /\ Forall (fun b => 128 <= b) (firstn maxn s)) /\
  ((exists v r, f s = Ok (v, r)) \/ f s = Err E_overrun \/ f s = Err E_invalid_varuint_encoding).
Proof. exact varuint_reader_spec. Qed.
Print Assumptions C02_varuint_readers.

(** Decoding is not injective: over-long encodings and dropped high bits. *)
Theorem C02_decode_injective_refuted :
  exists a b v, bytes_ok a /\ bytes_ok b /\ a <> b /\
    varuint32_from_bin a = Ok (v, []) /\ varuint32_from_bin b = Ok (v, []) /\
    (exists c, c <> a /\ bytes_ok c /\ List.length c = 5%nat /\
               varuint32_from_bin c = Ok (4294967295, []) /\
               varuint32_from_bin [255; 255; 255; 255; 15] = Ok (4294967295, []) /\
               c <> [255; 255; 255; 255; 15]).
Proof.
  exists [5], [133; 0], 5. split; [repeat constructor; unfold is_byte; lia|].
  split; [repeat constructor; unfold is_byte; lia|]. split; [discriminate|].
  split; [reflexivity|]. split; [reflexivity|].
  exists [255; 255; 255; 255; 127]. split; [discriminate|].
  split; [repeat constructor; unfold is_byte; lia|]. repeat split; try reflexivity. discriminate.
Qed.
Print Assumptions C02_decode_injective_refuted.

Example C02_example :
  varuint32_from_bin [128; 128] = Err E_overrun /\
  varuint32_from_bin [128; 128; 128; 128; 128; 1] = Err E_invalid_varuint_encoding /\
  varuint64_from_bin [128; 128; 128; 128; 128; 1; 9] = Ok (34359738368, [9]).
Proof. vm_compute. auto. Qed.

(** ** C03 *)
Theorem C03_native_binary_roundtrip : forall env fuel t v,
  wf env fuel t v = true ->
  exists bin, to_bin vector_stream env fuel t v [] = Ok bin /\
    forall rest, bytes_ok rest -> from_bin env fuel t (bin ++ rest) = Ok (v, rest).
Proof. exact TypedBinFacts.native_bin_roundtrip. Qed.
Print Assumptions C03_native_binary_roundtrip.

Theorem C03_convert_roundtrip : forall env fuel t v,
  wf env fuel t v = true ->
  exists bin, convert_to_bin env fuel t v [] = Ok bin /\ convert_from_bin env fuel t bin = Ok v /\ bytes_ok bin.
Proof. exact convert_roundtrip. Qed.
Print Assumptions C03_convert_roundtrip.

(** More call depth never invalidates a value. *)
Theorem C03_depth_monotone : forall env f1 f2 t v,
  (f1 <= f2)%nat -> wf env f1 t v = true -> wf env f2 t v = true.
Proof. exact wf_mono. Qed.
Print Assumptions C03_depth_monotone.

(** A recursive type: [struct node { set<int16_t> s; variant<string, vector<node>> v;
    optional<double> d; map<uint8_t,bool> m; }]. *)
Definition node_env (n : nat) : ty :=
  TWrap (KStruct [str "s"; str "v"; str "d"; str "m"])
    (TTuple [TSet (TInt true 2); TVariant [TString; TVec (TRef 0)]; TOpt (TFloat 8); TMap (TInt false 1) TBool]).
Definition node_leaf : val :=
  VList [VList [VInt (-7); VInt 3]; VVar 0 (VStr (str "hi")); VOpt None; VList [VList [VInt 1; VBool true]]].
Definition node_val : val :=
  VList [VList []; VVar 1 (VList [node_leaf; node_leaf]); VOpt (Some (VFloat 8 4611686018427387904)); VList []].
Example C03_example :
  wf node_env 2 (TRef 0) node_val = true /\
  (exists b, to_bin vector_stream node_env 2 (TRef 0) node_val [] = Ok b /\ (20 < List.length b)%nat /\
             from_bin node_env 2 (TRef 0) (b ++ [1; 2]) = Ok (node_val, [1; 2])).
Proof. split; [reflexivity|]. eexists. split; [vm_compute; reflexivity|]. split; [cbn; lia|vm_compute; reflexivity]. Qed.

(** ** C04 *)
Theorem C04_native_decode_sound : forall env fuel t s,
  (forall n, ty_ok (env n) = true) -> ty_ok t = true ->
  bytes_ok s -> Z.of_nat (List.length s) < 2 ^ 32 ->
  match from_bin env fuel t s with
  | Ok (v, rest) => (exists consumed, s = consumed ++ rest) /\ wf env fuel t v = true
  | Err e => In e decode_errors
  | Undef w => In w decode_hazards
  end.
Proof. exact native_decode_sound. Qed.
Print Assumptions C04_native_decode_sound.

Theorem C04_decoded_value_reencodes : forall env fuel t s v rest,
  (forall n, ty_ok (env n) = true) -> ty_ok t = true ->
  bytes_ok s -> Z.of_nat (List.length s) < 2 ^ 32 ->
  from_bin env fuel t s = Ok (v, rest) ->
  exists bin, convert_to_bin env fuel t v [] = Ok bin /\ from_bin env fuel t (bin ++ rest) = Ok (v, rest).
Proof. exact native_reencode. Qed.
Print Assumptions C04_decoded_value_reencodes.

Example C04_example :
  (forall n, ty_ok (node_env n) = true) /\
  from_bin node_env 1 (TVec (TInt false 8)) [255; 255; 255; 255; 255; 255; 255; 255; 255; 1] = Err E_overrun /\
  from_bin node_env 1 (TVec (TInt false 8)) [128; 128; 128; 128; 128; 128; 128; 128; 32] = Err E_length_error /\
  from_bin node_env 1 (TSet (TInt true 1)) [3; 5; 255; 5; 0] = Ok (VList [VInt (-1); VInt 5], [0]) /\
  from_bin node_env 1 TBool [2] = Undef "bool object with a representation other than 0 or 1".
Proof. split; [reflexivity|]. vm_compute. auto. Qed.

(** ** C05 *)
Theorem C05_two_pass : forall env fuel t v,
  (forall bin, to_bin vector_stream env fuel t v [] = Ok bin ->
     to_bin size_stream env fuel t v 0%nat = Ok (List.length bin) /\
     to_bin fixed_buf_stream env fuel t v ([], List.length bin) = Ok (bin, 0%nat) /\
     (forall room, (room < List.length bin)%nat ->
        to_bin fixed_buf_stream env fuel t v ([], room) = Err E_overrun) /\
     forall old, convert_to_bin env fuel t v old = Ok (old ++ bin)) /\
  (forall e, to_bin vector_stream env fuel t v [] = Err e -> forall old, convert_to_bin env fuel t v old = Err e).
Proof. exact two_pass. Qed.
Print Assumptions C05_two_pass.

Example C05_example :
  convert_to_bin node_env 0 (TVec TString) (VList [VStr (str "ab"); VStr []]) [9] = Ok [9; 2; 2; 97; 98; 0].
Proof. reflexivity. Qed.
