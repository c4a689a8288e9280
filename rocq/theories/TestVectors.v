(** * TestVectors: the model run on the vectors of src/test.cpp
    These are tests of the model, not properties of the code: they show that the
    definitions the theorems are about give the results the project's own test program asks
    of the C++ code. Generated from src/test.cpp (check_type and check_error calls of
    :420-921 and the ABIs of :13-247); of the about 40 keys and signatures 7 are kept here (they are
    slow in the checker), all were run. src/test.cpp does not compare the texts of errors
    (:296-297, "in flux"); the texts below are those of the model. *)
From Verif Require Import Base Machine AbiScalar AbiJson AbiBin Abi Capi Hex Name Json AbiDef TypedBin Asset.

(** [step] iterated at most [n] times; [None]: more are needed *)
Fixpoint run {S R} (step : S -> res (S + R)) (n : nat) (s : S) : option (res R) :=
  match n with
  | O => None
  | Datatypes.S n =>
      match step s with
      | Ok (inr r) => Some (Ok r)
      | Ok (inl s') => run step n s'
      | Err e => Some (Err e)
      | Undef w => Some (Undef w)
      end
  end.
(** What it finds is the outcome the loop ends with. *)
Lemma run_exec {S R} (step : S -> res (S + R)) n s r : run step n s = Some r -> exec step s r.
Proof.
  revert s. induction n as [|n IH]; intros s H; [discriminate|]. simpl in H.
  destruct (step s) as [[s'|x]|e|w] eqn:Hs.
  - eapply exec_step; [exact Hs|]. apply IH. exact H.
  - injection H as <-. apply exec_done. exact Hs.
  - injection H as <-. apply exec_err. exact Hs.
  - injection H as <-. apply exec_undef. exact Hs.
Qed.

(** strtof and strtod on the four texts the vectors have: 0.0, 0.125, -0.125, 0 *)
Definition few_floats (n : nat) (t : bytes) : option Z :=
  let m := if Nat.eqb n 4 then 23 else 52 in
  let b := if Nat.eqb n 4 then 127 else 1023 in
  if beq t (str "0.0") then Some 0
  else if beq t (str "0.125") then Some (Z.shiftl (b - 3) m)
  else if beq t (str "-0.125") then Some (Z.shiftl 1 (8 * Z.of_nat n - 1) + Z.shiftl (b - 3) m)
  else if beq t (str "0") then Some 0 else None.
Definition floats : float_lib := {| fl_parse := few_floats; ov := Wrap |}.

Definition fuel := 3000%nat.
(** a value, or the text of the error; undefined behaviour or an unfinished loop is no error *)
Inductive got (A : Type) := Got (a : A) | Fails (text : bytes) | Stuck.
Arguments Got {A}. Arguments Fails {A}. Arguments Stuck {A}.
Definition of_res {A} (r : res A) : got A := match r with Ok a => Got a | Err e => Fails (what e) | Undef _ => Stuck end.
Definition of_run {A} (r : option (res A)) : got A := match r with Some r => of_res r | None => Stuck end.
Definition next {A B} (x : got A) (f : A -> got B) : got B := match x with Got a => f a | Fails t => Fails t | Stuck => Stuck end.

(** abieos_set_abi, abieos_set_abi_hex on a context without the contract (src/abieos.cpp:101-152) *)
Definition set_abi (text : bytes) : got abi :=
  next (of_res (abi_def_from_json floats (open_json text))) (fun '(d, _) =>
  if check_abi_version (ad_version d) then of_res (convert d) else Fails unsupported).
Definition set_abi_hex (h : bytes) : got abi :=
  match unhex h with
  | None => Fails (str "expected hex string")
  | Some [] => Fails (str "no data")
  | Some b =>
      next (of_res (from_bin no_env 0 TString b)) (fun '(v, _) =>
      match v with
      | VStr v => if check_abi_version v then next (of_res (abi_def_from_bin b)) (fun '(d, _) => of_res (convert d)) else Fails unsupported
      | _ => Stuck
      end)
  end.
(** abieos_json_to_bin, abieos_json_to_bin_reorderable, abieos_hex_to_json (src/abieos.cpp:184-253) *)
Definition json_to_bin (a : abi) (t j : bytes) : got bytes :=
  next (of_res (abi_get_type a t)) (fun '(p, a) =>
  of_run (run (jstep floats (abi_types a) []) fuel (JCall true p (JSt (open_json j) [] [] [] false)))).
Definition json_to_bin_reorderable (a : abi) (t j : bytes) : got bytes :=
  next (of_res (abi_get_type a t)) (fun '(p, a) =>
  next (of_res (json_to_jvalue j)) (fun x =>
  of_run (run (rstep floats (abi_types a)) fuel (RCall true p x (RSt [] [] false))))).
Definition bin_to_json (a : abi) (t b : bytes) : got bytes :=
  next (of_res (abi_get_type a t)) (fun '(p, a) =>
  next (of_res (bstart floats (abi_types a) chain_budget true p (BS b [] []))) (fun s =>
  next (of_run (run (bstep floats (abi_types a)) fuel s)) (fun '(text, rest) =>
  if beq rest [] then Got text else Fails (str "Extra data")))).
Definition hex_to_json (a : abi) (t h : bytes) : got bytes :=
  match unhex h with None => Fails (str "expected hex string") | Some b => bin_to_json a t b end.

(** run_check_type (src/test.cpp:271-290): the text is read by both converters (by one of
    them if not [ordered]), they agree, and reading it back gives the text expected. *)
Definition check_type (ordered : bool) (a : abi) (t j expected : bytes) : bool :=
  match json_to_bin_reorderable a t j with
  | Got b =>
      (if ordered then match json_to_bin a t j with Got b' => beq b b' | _ => false end else true) &&
      match hex_to_json a t (hex b) with Got s => beq s expected | _ => false end
  | _ => false
  end.
Definition same (a : abi) (v : bytes * bytes) : bool := check_type true a (fst v) (snd v) (snd v).
Definition to (a : abi) (v : bytes * bytes * bytes) : bool := let '(t, j, x) := v in check_type true a t j x.
(** check_error (src/test.cpp:308-310) *)
Definition error {A} (x : got A) (text : bytes) : bool := match x with Fails e => beq e text | _ => false end.
Definition errs {A} (f : bytes -> bytes -> got A) (v : bytes * bytes * bytes) : bool := let '(t, j, e) := v in error (f t j) e.


(** src/test.cpp:13-26 *)
Definition token_text : bytes := str "0e656f73696f3a3a6162692f312e30010c6163636f756e745f6e616d65046e616d6505087472616e7366657200040466726f6d0c6163636f756e745f6e616d6502746f0c6163636f756e745f6e616d65087175616e74697479056173736574046d656d6f06737472696e67066372656174650002066973737565720c6163636f756e745f6e616d650e6d6178696d756d5f737570706c79056173736574056973737565000302746f0c6163636f756e745f6e616d65087175616e74697479056173736574046d656d6f06737472696e67076163636f756e7400010762616c616e63650561737365740e63757272656e63795f7374617473000306737570706c790561737365740a6d61785f737570706c79056173736574066973737565720c6163636f756e745f6e616d6503000000572d3ccdcd087472616e73666572000000000000a531760569737375650000000000a86cd445066372656174650002000000384f4d113203693634010863757272656e6379010675696e743634076163636f756e740000000000904dc603693634010863757272656e6379010675696e7436340e63757272656e63795f7374617473000000".

Definition token : got abi := Eval vm_compute in set_abi_hex token_text.

Example token_loads : token = set_abi_hex token_text.
Proof. vm_compute. reflexivity. Qed.

Definition token_abi : abi := match token with Got a => a | _ => Abi [] [] [] end.

Example token_is : token = Got token_abi.
Proof. reflexivity. Qed.

(** src/test.cpp:28-31 *)
Definition test_hex_text : bytes := str "0E656F73696F3A3A6162692F312E310004027331000102783104696E7438027332000202793105696E74382402793205696E7438240273330003027A3105696E743824027A3203763124027A3303733224027334000202613106696E74383F2402623107696E74385B5D240000000000010276310304696E7438027331027332".

Definition test_hex : got abi := Eval vm_compute in set_abi_hex test_hex_text.

Example test_hex_loads : test_hex = set_abi_hex test_hex_text.
Proof. vm_compute. reflexivity. Qed.

Definition test_hex_abi : abi := match test_hex with Got a => a | _ => Abi [] [] [] end.

Example test_hex_is : test_hex = Got test_hex_abi.
Proof. reflexivity. Qed.

(** src/test.cpp:33-129 *)
Definition test_abi_text : bytes := str "{
    ""version"": ""eosio::abi/1.1"",
    ""structs"": [
        {
            ""name"": ""s1"",
            ""fields"": [
                {
                    ""name"": ""x1"",
                    ""type"": ""int8""
                }
            ]
        },
        {
            ""name"": ""s2"",
            ""fields"": [
                {
                    ""name"": ""y1"",
                    ""type"": ""int8$""
                },
                {
                    ""name"": ""y2"",
                    ""type"": ""int8$""
                }
            ]
        },
        {
            ""name"": ""s3"",
            ""fields"": [
                {
                    ""name"": ""z1"",
                    ""type"": ""int8$""
                },
                {
                    ""name"": ""z2"",
                    ""type"": ""v1$""
                },
                {
                    ""name"": ""z3"",
                    ""type"": ""s2$""
                }
            ]
        },
        {
            ""name"": ""s4"",
            ""fields"": [
                {
                    ""name"": ""a1"",
                    ""type"": ""int8?$""
                },
                {
                    ""name"": ""b1"",
                    ""type"": ""int8[]$""
                }
            ]
        },
        {
            ""name"": ""s5"",
            ""fields"": [
                {
                    ""name"": ""x1"",
                    ""type"": ""int8""
                },
                {
                    ""name"": ""x2"",
                    ""type"": ""int8""
                },
                {
                    ""name"": ""x3"",
                    ""type"": ""s6""
                }
            ]
        },
        {
            ""name"": ""s6"",
            ""fields"": [
                {
                    ""name"": ""c1"",
                    ""type"": ""int8""
                },
                {
                    ""name"": ""c2"",
                    ""type"": ""s5[]""
                },
                {
                    ""name"": ""c3"",
                    ""type"": ""int8""
                }
            ]
        }
    ],
    ""variants"": [
        {
            ""name"": ""v1"",
            ""types"": [""int8"",""s1"",""s2""]
        }
    ]
}".

Definition test_abi : got abi := Eval vm_compute in set_abi test_abi_text.

Example test_abi_loads : test_abi = set_abi test_abi_text.
Proof. vm_compute. reflexivity. Qed.

Definition test_abi_abi : abi := match test_abi with Got a => a | _ => Abi [] [] [] end.

Example test_abi_is : test_abi = Got test_abi_abi.
Proof. reflexivity. Qed.

(** src/test.cpp:131-247 *)
Definition transaction_abi_text : bytes := str "{
    ""version"": ""eosio::abi/1.0"",
    ""types"": [
        {
            ""new_type_name"": ""account_name"",
            ""type"": ""name""
        },
        {
            ""new_type_name"": ""action_name"",
            ""type"": ""name""
        },
        {
            ""new_type_name"": ""permission_name"",
            ""type"": ""name""
        }
    ],
    ""structs"": [
        {
            ""name"": ""permission_level"",
            ""base"": """",
            ""fields"": [
                {
                    ""name"": ""actor"",
                    ""type"": ""account_name""
                },
                {
                    ""name"": ""permission"",
                    ""type"": ""permission_name""
                }
            ]
        },
        {
            ""name"": ""action"",
            ""base"": """",
            ""fields"": [
                {
                    ""name"": ""account"",
                    ""type"": ""account_name""
                },
                {
                    ""name"": ""name"",
                    ""type"": ""action_name""
                },
                {
                    ""name"": ""authorization"",
                    ""type"": ""permission_level[]""
                },
                {
                    ""name"": ""data"",
                    ""type"": ""bytes""
                }
            ]
        },
        {
            ""name"": ""extension"",
            ""base"": """",
            ""fields"": [
                {
                    ""name"": ""type"",
                    ""type"": ""uint16""
                },
                {
                    ""name"": ""data"",
                    ""type"": ""bytes""
                }
            ]
        },
        {
            ""name"": ""transaction_header"",
            ""base"": """",
            ""fields"": [
                {
                    ""name"": ""expiration"",
                    ""type"": ""time_point_sec""
                },
                {
                    ""name"": ""ref_block_num"",
                    ""type"": ""uint16""
                },
                {
                    ""name"": ""ref_block_prefix"",
                    ""type"": ""uint32""
                },
                {
                    ""name"": ""max_net_usage_words"",
                    ""type"": ""varuint32""
                },
                {
                    ""name"": ""max_cpu_usage_ms"",
                    ""type"": ""uint8""
                },
                {
                    ""name"": ""delay_sec"",
                    ""type"": ""varuint32""
                }
            ]
        },
        {
            ""name"": ""transaction"",
            ""base"": ""transaction_header"",
            ""fields"": [
                {
                    ""name"": ""context_free_actions"",
                    ""type"": ""action[]""
                },
                {
                    ""name"": ""actions"",
                    ""type"": ""action[]""
                },
                {
                    ""name"": ""transaction_extensions"",
                    ""type"": ""extension[]""
                }
            ]
        }
    ]
}".

Definition transaction_abi : got abi := Eval vm_compute in set_abi transaction_abi_text.

Example transaction_abi_loads : transaction_abi = set_abi transaction_abi_text.
Proof. vm_compute. reflexivity. Qed.

Definition transaction_abi_abi : abi := match transaction_abi with Got a => a | _ => Abi [] [] [] end.

Example transaction_abi_is : transaction_abi = Got transaction_abi_abi.
Proof. reflexivity. Qed.

Example read_and_shown_transaction_abi_abi_1 : forallb (same transaction_abi_abi) [
  (str "bool", str "true");
  (str "bool", str "false");
  (str "int8", str "0");
  (str "int8", str "127");
  (str "int8", str "-128");
  (str "uint8", str "0");
  (str "uint8", str "1");
  (str "uint8", str "254");
  (str "uint8", str "255");
  (str "uint8[]", str "[]");
  (str "uint8[]", str "[10]");
  (str "uint8[]", str "[10,9]");
  (str "uint8[]", str "[10,9,8]");
  (str "int16", str "0");
  (str "int16", str "32767");
  (str "int16", str "-32768");
  (str "uint16", str "0");
  (str "uint16", str "65535");
  (str "int32", str "0");
  (str "int32", str "2147483647");
  (str "int32", str "-2147483648");
  (str "uint32", str "0");
  (str "uint32", str "4294967295");
  (str "int64", str """0""");
  (str "int64", str """9223372036854775807""");
  (str "int64", str """-9223372036854775808""");
  (str "uint64", str """0""");
  (str "uint64", str """18446744073709551615""");
  (str "int128", str """0""");
  (str "int128", str """1""");
  (str "int128", str """-1""");
  (str "int128", str """18446744073709551615""");
  (str "int128", str """-18446744073709551615""");
  (str "int128", str """170141183460469231731687303715884105727""");
  (str "int128", str """-170141183460469231731687303715884105727""");
  (str "int128", str """-170141183460469231731687303715884105728""");
  (str "uint128", str """0""");
  (str "uint128", str """1""");
  (str "uint128", str """18446744073709551615""");
  (str "uint128", str """340282366920938463463374607431768211454""");
  (str "uint128", str """340282366920938463463374607431768211455""");
  (str "varuint32", str "0");
  (str "varuint32", str "127");
  (str "varuint32", str "128");
  (str "varuint32", str "129")
] = true.
Proof. vm_compute. reflexivity. Qed.

Example read_and_shown_transaction_abi_abi_2 : forallb (same transaction_abi_abi) [
  (str "varuint32", str "16383");
  (str "varuint32", str "16384");
  (str "varuint32", str "16385");
  (str "varuint32", str "2097151");
  (str "varuint32", str "2097152");
  (str "varuint32", str "2097153");
  (str "varuint32", str "268435455");
  (str "varuint32", str "268435456");
  (str "varuint32", str "268435457");
  (str "varuint32", str "4294967294");
  (str "varuint32", str "4294967295");
  (str "varint32", str "0");
  (str "varint32", str "-1");
  (str "varint32", str "1");
  (str "varint32", str "-2");
  (str "varint32", str "2");
  (str "varint32", str "-2147483647");
  (str "varint32", str "2147483647");
  (str "varint32", str "-2147483648");
  (str "float32", str "0.125");
  (str "float32", str "-0.125");
  (str "float64", str "0.125");
  (str "float64", str "-0.125");
  (str "float128", str """00000000000000000000000000000000""");
  (str "float128", str """FFFFFFFFFFFFFFFFFFFFFFFFFFFFFFFF""");
  (str "float128", str """12345678ABCDEF12345678ABCDEF1234""");
  (str "time_point_sec", str """1970-01-01T00:00:00.000""");
  (str "time_point_sec", str """2018-06-15T19:17:47.000""");
  (str "time_point_sec", str """2030-06-15T19:17:47.000""");
  (str "time_point", str """1970-01-01T00:00:00.000""");
  (str "time_point", str """1970-01-01T00:00:00.001""");
  (str "time_point", str """1970-01-01T00:00:00.002""");
  (str "time_point", str """1970-01-01T00:00:00.010""");
  (str "time_point", str """1970-01-01T00:00:00.100""");
  (str "time_point", str """2018-06-15T19:17:47.000""");
  (str "time_point", str """2018-06-15T19:17:47.999""");
  (str "time_point", str """2030-06-15T19:17:47.999""");
  (str "block_timestamp_type", str """2000-01-01T00:00:00.000""");
  (str "block_timestamp_type", str """2000-01-01T00:00:00.500""");
  (str "block_timestamp_type", str """2000-01-01T00:00:01.000""");
  (str "block_timestamp_type", str """2018-06-15T19:17:47.500""");
  (str "block_timestamp_type", str """2018-06-15T19:17:48.000""");
  (str "name", str """""");
  (str "name", str """1""");
  (str "name", str """abcd""")
] = true.
Proof. vm_compute. reflexivity. Qed.

Example read_and_shown_transaction_abi_abi_3 : forallb (same transaction_abi_abi) [
  (str "name", str """ab.cd.ef""");
  (str "name", str """ab.cd.ef.1234""");
  (str "name", str """zzzzzzzzzzzz""");
  (str "bytes", str """""");
  (str "bytes", str """00""");
  (str "bytes", str """AABBCCDDEEFF00010203040506070809""");
  (str "string", str """""");
  (str "string", str """z""");
  (str "string", str """This is a string.""");
  (str "string", str """' + '*'.repeat(128) + '""");
  (str "string", str """\u0000  这是一个测试  Это тест  هذا اختبار 👍""");
  (str "checksum160", str """0000000000000000000000000000000000000000""");
  (str "checksum160", str """123456789ABCDEF01234567890ABCDEF70123456""");
  (str "checksum256", str """0000000000000000000000000000000000000000000000000000000000000000""");
  (str "checksum256", str """0987654321ABCDEF0987654321FFFF1234567890ABCDEF001234567890ABCDEF""");
  (str "checksum512", str """00000000000000000000000000000000000000000000000000000000000000000000000000000000000000000000000000000000000000000000000000000000""");
  (str "checksum512", str """0987654321ABCDEF0987654321FFFF1234567890ABCDEF001234567890ABCDEF0987654321ABCDEF0987654321FFFF1234567890ABCDEF001234567890ABCDEF""");
  (str "public_key", str """PUB_K1_11111111111111111111111111111111149Mr2R""");
  (str "public_key", str """PUB_R1_1111111111111111111111111111111116amPNj""");
  (str "public_key", str """PUB_WA_8PPYTWYNkRqrveNAoX7PJWDtSqDUp3c29QGBfr6MD9EaLocaPBmsk5QAHWq4vEQt2""");
  (str "private_key", str """PVT_R1_PtoxLPzJZURZmPS4e26pjBiAn41mkkLPrET5qHnwDvbvqFEL6""");
  (str "signature", str """SIG_K1_Kg2UKjXTX48gw2wWH4zmsZmWu3yarcfC21Bd9JPj7QoDURqiAacCHmtExPk3syPb2tFLsp1R4ttXLXgr7FYgDvKPC5RCkx""");
  (str "symbol_code", str """A""");
  (str "symbol_code", str """B""");
  (str "symbol_code", str """SYS""");
  (str "symbol", str """0,A""");
  (str "symbol", str """1,Z""");
  (str "symbol", str """4,SYS""");
  (str "asset", str """0 FOO""");
  (str "asset", str """0.0 FOO""");
  (str "asset", str """0.00 FOO""");
  (str "asset", str """0.000 FOO""");
  (str "asset", str """1.2345 SYS""");
  (str "asset", str """-1.2345 SYS""");
  (str "asset[]", str "[]");
  (str "asset[]", str "[""0 FOO""]");
  (str "asset[]", str "[""0 FOO"",""0.000 FOO""]");
  (str "asset?", str "null");
  (str "asset?", str """0.123456 SIX""");
  (str "extended_asset", str "{""quantity"":""0 FOO"",""contract"":""bar""}");
  (str "extended_asset", str "{""quantity"":""0.123456 SIX"",""contract"":""seven""}");
  (str "transaction", str "{""expiration"":""2009-02-13T23:31:31.000"",""ref_block_num"":1234,""ref_block_prefix"":5678,""max_net_usage_words"":0,""max_cpu_usage_ms"":0,""delay_sec"":0,""context_free_actions"":[],""actions"":[{""account"":""eosio.token"",""name"":""transfer"",""authorization"":[{""actor"":""useraaaaaaaa"",""permission"":""active""}],""data"":""608C31C6187315D6708C31C6187315D60100000000000000045359530000000000""}],""transaction_extensions"":[]}")
] = true.
Proof. vm_compute. reflexivity. Qed.

Example read_and_shown_token_abi_1 : forallb (same token_abi) [
  (str "transfer", str "{""from"":""useraaaaaaaa"",""to"":""useraaaaaaab"",""quantity"":""0.0001 SYS"",""memo"":""test memo""}")
] = true.
Proof. vm_compute. reflexivity. Qed.

Example read_and_shown_test_abi_abi_1 : forallb (same test_abi_abi) [
  (str "v1", str "[""int8"",7]");
  (str "v1", str "[""s1"",{""x1"":6}]");
  (str "v1", str "[""s2"",{""y1"":5,""y2"":4}]");
  (str "s3", str "{}");
  (str "s3", str "{""z1"":7}");
  (str "s3", str "{""z1"":7,""z2"":[""int8"",6]}");
  (str "s3", str "{""z1"":7,""z2"":[""int8"",6],""z3"":{""y1"":9}}");
  (str "s3", str "{""z1"":7,""z2"":[""int8"",6],""z3"":{""y1"":9,""y2"":10}}");
  (str "s4", str "{}");
  (str "s4", str "{""a1"":null}");
  (str "s4", str "{""a1"":7}");
  (str "s4", str "{""a1"":null,""b1"":[]}");
  (str "s4", str "{""a1"":null,""b1"":[5,6,7]}")
] = true.
Proof. vm_compute. reflexivity. Qed.

Example read_and_shown_test_hex_abi_1 : forallb (same test_hex_abi) [
  (str "v1", str "[""int8"",7]");
  (str "v1", str "[""s1"",{""x1"":6}]");
  (str "v1", str "[""s2"",{""y1"":5,""y2"":4}]");
  (str "s3", str "{}");
  (str "s3", str "{""z1"":7}");
  (str "s3", str "{""z1"":7,""z2"":[""int8"",6]}");
  (str "s3", str "{""z1"":7,""z2"":[""int8"",6],""z3"":{""y1"":9}}");
  (str "s3", str "{""z1"":7,""z2"":[""int8"",6],""z3"":{""y1"":9,""y2"":10}}");
  (str "s4", str "{}");
  (str "s4", str "{""a1"":null}");
  (str "s4", str "{""a1"":7}");
  (str "s4", str "{""a1"":null,""b1"":[]}");
  (str "s4", str "{""a1"":null,""b1"":[5,6,7]}")
] = true.
Proof. vm_compute. reflexivity. Qed.

Example read_and_rewritten_transaction_abi_abi_1 : forallb (to transaction_abi_abi) [
  (str "int64", str "0", str """0""");
  (str "int64", str "1", str """1""");
  (str "int64", str "-1", str """-1""");
  (str "float32", str "0.0", str "0");
  (str "float64", str "0.0", str "0");
  (str "time_point", str """2000-12-31T23:59:59.999999""", str """2000-12-31T23:59:59.999""");
  (str "name", str """..ab.cd.ef..""", str """..ab.cd.ef""");
  (str "public_key", str """EOS1111111111111111111111111111111114T1Anm""", str """PUB_K1_11111111111111111111111111111111149Mr2R""");
  (str "public_key", str """EOS9adaAMuB9v8yX1mZ5PtoB6VFSCeqRGjASd8ZTM6VUkiHL7mue4K""", str """PUB_K1_9adaAMuB9v8yX1mZ5PtoB6VFSCeqRGjASd8ZTM6VUkiHLB5XEdw""");
  (str "public_key", str """EOS69X3383RzBZj41k73CSjUNXM5MYGpnDxyPnWUKPEtYQmTBWz4D""", str """PUB_K1_69X3383RzBZj41k73CSjUNXM5MYGpnDxyPnWUKPEtYQmVzqTY7""");
  (str "public_key", str """EOS7yBtksm8Kkg85r4in4uCbfN77uRwe82apM8jjbhFVDgEgz3w8S""", str """PUB_K1_7yBtksm8Kkg85r4in4uCbfN77uRwe82apM8jjbhFVDgEcarGb8""");
  (str "private_key", str """5KQwrPbwdL6PhXujxW37FSSQZ1JiwsST4cqQzDeyXtP79zkvFD3""", str """PVT_K1_2bfGi9rYsXQSXXTvJbDAPhHLQUojjaNLomdm3cEJ1XTzMqUt3V""")
] = true.
Proof. vm_compute. reflexivity. Qed.

Example read_and_rewritten_test_abi_abi_1 : forallb (to test_abi_abi) [
  (str "s3", str "{""z1"":7,""z2"":[""int8"",6],""z3"":{}}", str "{""z1"":7,""z2"":[""int8"",6]}")
] = true.
Proof. vm_compute. reflexivity. Qed.

Example read_and_rewritten_test_hex_abi_1 : forallb (to test_hex_abi) [
  (str "s3", str "{""z1"":7,""z2"":[""int8"",6],""z3"":{}}", str "{""z1"":7,""z2"":[""int8"",6]}")
] = true.
Proof. vm_compute. reflexivity. Qed.

Example reordered_1 : check_type false token_abi (str "transfer") (str "{""to"":""useraaaaaaab"",""memo"":""test memo"",""from"":""useraaaaaaaa"",""quantity"":""0.0001 SYS""}") (str "{""from"":""useraaaaaaaa"",""to"":""useraaaaaaab"",""quantity"":""0.0001 SYS"",""memo"":""test memo""}") = true.
Proof. vm_compute. reflexivity. Qed.

Example reordered_2 : check_type false transaction_abi_abi (str "transaction") (str "{""ref_block_num"":1234,""ref_block_prefix"":5678,""expiration"":""2009-02-13T23:31:31.000"",""max_net_usage_words"":0,""max_cpu_usage_ms"":0,""delay_sec"":0,""context_free_actions"":[],""actions"":[{""account"":""eosio.token"",""name"":""transfer"",""authorization"":[{""actor"":""useraaaaaaaa"",""permission"":""active""}],""data"":""608C31C6187315D6708C31C6187315D60100000000000000045359530000000000""}],""transaction_extensions"":[]}") (str "{""expiration"":""2009-02-13T23:31:31.000"",""ref_block_num"":1234,""ref_block_prefix"":5678,""max_net_usage_words"":0,""max_cpu_usage_ms"":0,""delay_sec"":0,""context_free_actions"":[],""actions"":[{""account"":""eosio.token"",""name"":""transfer"",""authorization"":[{""actor"":""useraaaaaaaa"",""permission"":""active""}],""data"":""608C31C6187315D6708C31C6187315D60100000000000000045359530000000000""}],""transaction_extensions"":[]}") = true.
Proof. vm_compute. reflexivity. Qed.

Example error_hex_to_json_transaction_abi_abi_1 : forallb (errs (hex_to_json transaction_abi_abi)) [
  (str "bool", str "", str "Stream overrun");
  (str "int16", str "01", str "Stream overrun");
  (str "bytes", str "01", str "Stream overrun");
  (str "string", str "01", str "Stream overrun")
] = true.
Proof. vm_compute. reflexivity. Qed.

Example error_json_to_bin_transaction_abi_abi_1 : forallb (errs (json_to_bin transaction_abi_abi)) [
  (str "bool", str "trues", str "The document root must not follow by other values");
  (str "bool", str "null", str "Expected true or false");
  (str "bool", str """foo""", str "Expected true or false");
  (str "int8", str "128", str "number is out of range");
  (str "int8", str "-129", str "number is out of range");
  (str "uint8", str "-1", str "Expected integer");
  (str "uint8", str "256", str "number is out of range");
  (str "int16", str "32768", str "number is out of range");
  (str "int16", str "-32769", str "number is out of range");
  (str "uint16", str "-1", str "Expected integer");
  (str "uint16", str "655356", str "number is out of range");
  (str "int32", str "2147483648", str "number is out of range");
  (str "int32", str "-2147483649", str "number is out of range");
  (str "uint32", str "-1", str "Expected integer");
  (str "uint32", str "4294967296", str "number is out of range");
  (str "int64", str "9223372036854775808", str "number is out of range");
  (str "int64", str "-9223372036854775809", str "number is out of range");
  (str "uint64", str "-1", str "Expected integer");
  (str "uint64", str "18446744073709551616", str "number is out of range");
  (str "int128", str "170141183460469231731687303715884105728", str "number is out of range");
  (str "int128", str "-170141183460469231731687303715884105729", str "number is out of range");
  (str "int128", str "true", str "Expected string");
  (str "uint128", str "-1", str "Expected integer");
  (str "uint128", str "340282366920938463463374607431768211456", str "number is out of range");
  (str "uint128", str "true", str "Expected string");
  (str "varint32", str "2147483648", str "number is out of range");
  (str "varint32", str "-2147483649", str "number is out of range");
  (str "varuint32", str "-1", str "Expected integer");
  (str "varuint32", str "4294967296", str "number is out of range");
  (str "time_point_sec", str "true", str "Expected string");
  (str "time_point", str "true", str "Expected string");
  (str "block_timestamp_type", str "true", str "Expected string");
  (str "name", str "true", str "Expected string");
  (str "bytes", str """0""", str "Expected string containing hex");
  (str "bytes", str """yz""", str "Expected string containing hex");
  (str "bytes", str "true", str "Expected string");
  (str "checksum256", str """yz""", str "Expected string containing hex");
  (str "checksum256", str "true", str "Expected string");
  (str "checksum256", str """a0""", str "Hex string has incorrect length");
  (str "public_key", str "true", str "Expected string");
  (str "public_key", str """foo""", str "Expected public key");
  (str "private_key", str "true", str "Expected string");
  (str "private_key", str """foo""", str "Expected private key");
  (str "signature", str "true", str "Expected string");
  (str "signature", str """foo""", str "Expected signature")
] = true.
Proof. vm_compute. reflexivity. Qed.

Example error_json_to_bin_transaction_abi_abi_2 : forallb (errs (json_to_bin transaction_abi_abi)) [
  (str "symbol_code", str "true", str "Expected string");
  (str "symbol", str "null", str "Expected string");
  (str "asset", str "null", str "Expected string");
  (str "int8?[]", str "", str "Invalid nesting");
  (str "int8[]?", str "", str "Invalid nesting");
  (str "int8$?", str "", str "Invalid nesting");
  (str "int8$[]", str "", str "Invalid nesting");
  (str "int8$$", str "", str "Invalid nesting");
  (str "fee", str "", str "Unknown type")
] = true.
Proof. vm_compute. reflexivity. Qed.

Example error_json_to_bin_reorderable_transaction_abi_abi_1 : forallb (errs (json_to_bin_reorderable transaction_abi_abi)) [
  (str "int8", str "[[[[[[[[[[[[[[[[[[[[[[[[[[[[[[[[[[[[[[[[[[[[[[[[[[[[[[[[[[[[[[[[[[[[[[[[[[[[[[[[[[[[[[[[[[[[[[[[[[[[[[[[[[[[[[[[[[[[[[[[[[[[[[[[[]]]]]]]]]]]]]]]]]]]]]]]]]]]]]]]]]]]]]]]]]]]]]]]]]]]]]]]]]]]]]]]]]]]]]]]]]]]]]]]]]]]]]]]]]]]]]]]]]]]]]]]]]]]]]]]]]]]]]]]]]]]]]]]]]", str "Unspecific syntax error");
  (str "int8", str "1,2", str "Unspecific syntax error")
] = true.
Proof. vm_compute. reflexivity. Qed.

Example error_json_to_bin_test_abi_abi_1 : forallb (errs (json_to_bin test_abi_abi)) [
  (str "s4", str "null", str "Expected {");
  (str "s4", str "[]", str "Expected {");
  (str "s4", str "{""foo"":7}", str "Expected field");
  (str "s4", str "{""a1"":[]}", str "Expected string");
  (str "v1", str "null", str "Expected [");
  (str "v1", str "[]", str "Expected variant: [""type"", value]");
  (str "v1", str "[""x""]", str "Invalid type for variant");
  (str "v1", str "[""int8"",7,5]", str "Expected variant: [""type"", value]");
  (str "s5", str "{}", str "Expected field");
  (str "s5", str "{""x1"":5}", str "Expected field");
  (str "s5", str "{""x1"":5,""x2"":7}", str "Expected field");
  (str "s5", str "{""x1"":null}", str "Expected string");
  (str "s5", str "{""x1"":9,""x2"":null}", str "Expected string");
  (str "s5", str "{""x1"":9,""x2"":10}", str "Expected field");
  (str "s5", str "{""x1"":9,""x2"":10,""x3"":null", str "Expected {");
  (str "s5", str "{""x1"":9,""x2"":10,""x3"":{}", str "Expected field");
  (str "s5", str "{""x1"":9,""x2"":10,""x3"":{""c1"":4}", str "Expected field");
  (str "s5", str "{""x1"":9,""x2"":10,""x3"":{""c1"":4,""c2"":{}}", str "Expected [");
  (str "s5", str "{""x1"":9,""x2"":10,""x3"":{""c1"":4,""c2"":[7]", str "Expected {");
  (str "s5", str "{""x1"":9,""x2"":10,""x3"":{""c1"":4,""c2"":[{}]", str "Expected field");
  (str "s5", str "{""x1"":9,""x2"":10,""x3"":{""c1"":4,""c2"":[{""x1"":null}]}} ", str "Expected string");
  (str "s5", str "{""x1"":9,""x2"":10,""x3"":{""c1"":4,""c2"":[{""x1"":7}]}} ", str "Expected field");
  (str "s5", str "{""x1"":9,""x2"":10,""x3"":{""c1"":4,""c2"":[{""x1"":7,""x3"":null}]}} ", str "Expected field");
  (str "s5", str "{""x1"":9,""x2"":10,""x3"":{""c1"":4,""c2"":[{""x1"":7,""x2"":null}]}} ", str "Expected string");
  (str "s5", str "{""x1"":9,""x2"":10,""x3"":{""c1"":4,""c2"":[{""x1"":7,""x2"":true}]}} ", str "Expected string");
  (str "s5", str "{""x1"":9,""x2"":10,""x3"":{""c1"":4,""c2"":[{""x1"":7,""x2"":true,""x3"":null}]}} ", str "Expected string");
  (str "s5", str "{""x1"":9,""x2"":10,""x3"":{""c1"":4,""c2"":[{""x1"":7,""x2"":true,""x3"":{""c1"":0,""c2"":[],""c3"":7}},null]}} ", str "Expected string");
  (str "s5", str "{""x1"":9,""x2"":10,""x3"":{""c1"":4,""c2"":[{""x1"":7,""x2"":true,""x3"":{""c1"":0,""c2"":[],""c3"":7}},{} ]}} ", str "Expected string");
  (str "s5", str "{""x1"":9,""x2"":10,""x3"":{""c1"":4,""c2"":[{""x1"":7,""x2"":true,""x3"":{""c1"":0,""c2"":[],""c3"":7}},{""x1"":null} ]}} ", str "Expected string")
] = true.
Proof. vm_compute. reflexivity. Qed.

Example error_json_to_bin_reorderable_test_abi_abi_1 : forallb (errs (json_to_bin_reorderable test_abi_abi)) [
  (str "s4", str "null", str "Expected {");
  (str "s4", str "[]", str "Expected {");
  (str "s4", str "{""a1"":[]}", str "Expected string");
  (str "v1", str "null", str "Expected variant: [""type"", value]");
  (str "v1", str "[]", str "Expected variant: [""type"", value]");
  (str "v1", str "[""x"",7,5]", str "Expected variant: [""type"", value]");
  (str "v1", str "[""x"",7]", str "Invalid type for variant");
  (str "v1", str "[""int8"",7,5]", str "Expected variant: [""type"", value]");
  (str "s5", str "{}", str "Expected field");
  (str "s5", str "{""x1"":5}", str "Expected field");
  (str "s5", str "{""x1"":5,""x2"":7}", str "Expected field");
  (str "s5", str "{""x1"":null}", str "Expected string");
  (str "s5", str "{""x1"":9,""x2"":null}", str "Expected string");
  (str "s5", str "{""x1"":9,""x2"":10}", str "Expected field");
  (str "s5", str "{""x1"":9,""x2"":10,""x3"":null}", str "Expected {");
  (str "s5", str "{""x1"":9,""x2"":10,""x3"":{}}", str "Expected field");
  (str "s5", str "{""x1"":9,""x2"":10,""x3"":{""c1"":4}}", str "Expected field");
  (str "s5", str "{""x1"":9,""x2"":10,""x3"":{""c1"":4,""c2"":{}}}", str "Expected [");
  (str "s5", str "{""x1"":9,""x2"":10,""x3"":{""c1"":4,""c2"":[7]}}", str "Expected {");
  (str "s5", str "{""x1"":9,""x2"":10,""x3"":{""c1"":4,""c2"":[{}]}}", str "Expected field");
  (str "s5", str "{""x1"":9,""x2"":10,""x3"":{""c1"":4,""c2"":[{""x1"":null}]}} ", str "Expected string");
  (str "s5", str "{""x1"":9,""x2"":10,""x3"":{""c1"":4,""c2"":[{""x1"":7}]}} ", str "Expected field");
  (str "s5", str "{""x1"":9,""x2"":10,""x3"":{""c1"":4,""c2"":[{""x1"":7,""x3"":null}]}} ", str "Expected field");
  (str "s5", str "{""x1"":9,""x2"":10,""x3"":{""c1"":4,""c2"":[{""x1"":7,""x2"":null}]}} ", str "Expected string");
  (str "s5", str "{""x1"":9,""x2"":10,""x3"":{""c1"":4,""c2"":[{""x1"":7,""x2"":true}]}} ", str "Expected string");
  (str "s5", str "{""x1"":9,""x2"":10,""x3"":{""c1"":4,""c2"":[{""x1"":7,""x2"":true,""x3"":null}]}} ", str "Expected string");
  (str "s5", str "{""x1"":9,""x2"":10,""x3"":{""c1"":4,""c2"":[{""x1"":7,""x2"":true,""x3"":{""c1"":0,""c2"":[],""c3"":7}},null]}} ", str "Expected string");
  (str "s5", str "{""x1"":9,""x2"":10,""x3"":{""c1"":4,""c2"":[{""x1"":7,""x2"":true,""x3"":{""c1"":0,""c2"":[],""c3"":7}},{} ]}} ", str "Expected string");
  (str "s5", str "{""x1"":9,""x2"":10,""x3"":{""c1"":4,""c2"":[{""x1"":7,""x2"":true,""x3"":{""c1"":0,""c2"":[],""c3"":7}},{""x1"":null} ]}} ", str "Expected string")
] = true.
Proof. vm_compute. reflexivity. Qed.

Example error_loading_1 : error (set_abi_hex (str "")) (str "no data") = true.
Proof. vm_compute. reflexivity. Qed.

Example error_loading_2 : error (set_abi_hex (str "00")) (str "unsupported abi version") = true.
Proof. vm_compute. reflexivity. Qed.

Example error_loading_3 : error (set_abi_hex (str "0E656F73696F3A3A6162692F392E30")) (str "unsupported abi version") = true.
Proof. vm_compute. reflexivity. Qed.

Example error_loading_4 : error (set_abi_hex (str "0E656F73696F3A3A6162692F312E30")) (str "Stream overrun") = true.
Proof. vm_compute. reflexivity. Qed.

Example error_loading_5 : error (set_abi_hex (str "0E656F73696F3A3A6162692F312E31")) (str "Stream overrun") = true.
Proof. vm_compute. reflexivity. Qed.

Example error_loading_6 : error (set_abi (str "{""version"":""eosio::abi/9.0""}")) (str "unsupported abi version") = true.
Proof. vm_compute. reflexivity. Qed.

Example error_loading_7 : error (set_abi (str "{""version"":""eosio::abi/1.1"",""types"":[{""new_type_name"":"""",""type"":""int8""}]}")) (str "Missing name") = true.
Proof. vm_compute. reflexivity. Qed.

Example error_loading_8 : error (set_abi (str "{""version"":""eosio::abi/1.1"",""types"":[{""new_type_name"":""a"",""type"":""int8$""}]}")) (str "Extension typedef") = true.
Proof. vm_compute. reflexivity. Qed.

Example error_loading_9 : error (set_abi (str "{""version"":""eosio::abi/1.1"",""types"":[{""new_type_name"":""a"",""type"":""int8""},{""new_type_name"":""a"",""type"":""int8""}]}")) (str "Redefined type") = true.
Proof. vm_compute. reflexivity. Qed.

(** src/test.cpp: "invalid utf8" and "escaping" *)
Example shown_invalid_utf8 : bin_to_json transaction_abi_abi (str "string") (17 :: str "invalid utf8: " ++ [255; 254; 253]) = Got (str """invalid utf8: ???""").
Proof. vm_compute. reflexivity. Qed.
Example shown_escaped : bin_to_json transaction_abi_abi (str "string") [4; 232; 191; 153; 10] = Got (str """" ++ [232; 191; 153] ++ str "\u000A""").
Proof. vm_compute. reflexivity. Qed.
