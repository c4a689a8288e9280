(** * ShipSpec: the wire format and the JSON form of the state history protocol (specification for C40)
    Written from the protocol, independently of Ship.v. A format says how the value of a message is written as bytes
    and which JSON document it has. *)
From Verif Require Import Base StreamFacts TypedBin Hex Json JsonSpec Abi AbiScalar AbiRead AbiDefSpec.

Record fmt := Fmt { wire : val -> bytes; doc : float_lib -> val -> res jv }.
Definition bad : res jv := Undef "ill-typed value".

(** ** Building blocks *)
Definition int_in (v : val) : Z := match v with VInt z => z | _ => 0 end.
Definition items (v : val) : list val := match v with VList l => l | _ => [] end.
(** A number of [n] bytes, little endian (two's complement). The texts of scalars are those of C41. *)
Definition num (n : nat) (b : builtin) : fmt := Fmt (fun v => le_bytes n (int_in v)) (fun E v => scalar_jv E b v).
Definition u8 := num 1 B_uint8.
Definition u16 := num 2 B_uint16.
Definition u32 := num 4 B_uint32.
Definition u64 := num 8 B_uint64.
Definition u128 := num 16 B_uint128.
Definition i64 := num 8 B_int64.
Definition account_name := num 8 B_name.
Definition seconds := num 4 B_time_point_sec.      (* time_point_sec *)
Definition microseconds := num 8 B_time_point.     (* time_point *)
Definition slot := num 4 B_block_timestamp.        (* block_timestamp *)
Definition leb := Fmt (fun v => encv (int_in v)) (fun E v => scalar_jv E B_varuint32 v).   (* LEB128 *)
Definition flag := Fmt (fun v => [match v with VBool true => 1 | _ => 0 end]) (fun E v => scalar_jv E B_bool v).
Definition double := Fmt (fun v => match v with VFloat _ bits => le_bytes 8 bits | _ => [] end) (fun E v => scalar_jv E B_float64 v).
(** Bytes without a length, one number each. *)
Definition raw (v : val) : bytes := concat (map (fun x => le_bytes 1 (int_in x)) (items v)).
Definition hash := Fmt raw (fun E v => scalar_jv E B_checksum256 v).
Definition quad := Fmt raw (fun E v => scalar_jv E B_float128 v).
(** A length (LEB128) and that many bytes: as text, or as data shown in hex. *)
Definition counted (v : val) : bytes := match v with VStr s => b_str s | _ => [] end.
Definition text := Fmt counted (fun E v => scalar_jv E B_string v).
Definition data := Fmt counted (fun E v => match v with VStr d => Ok (JStr (hex d)) | _ => bad end).
(** Data which has no JSON form (to_json does not compile). *)
Definition sealed := Fmt counted (fun E v => Undef "does not compile").
(** Keys and signatures: an index and the key; for kind 2 with what WebAuthn adds. *)
Definition picked (fs : list (val -> bytes)) (v : val) : bytes :=
  match v with VVar i x => encv i ++ match nthz fs i with Some f => f x | None => [] end | _ => [] end.
Definition in_order (fs : list (val -> bytes)) (v : val) : bytes :=
  concat (map (fun p => fst p (snd p)) (combine fs (items v))).
Definition raw_list (v : val) : bytes := b_list (fun x => le_bytes 1 (int_in x)) (items v).
Definition pub_key := Fmt (picked [raw; raw; in_order [raw; wire u8; counted]]) (fun E v => scalar_jv E B_public_key v).
Definition sig := Fmt (picked [raw; raw; in_order [raw; raw_list; counted]]) (fun E v => scalar_jv E B_signature v).

(** ** Composition *)
Fixpoint all_docs (E : float_lib) (f : fmt) (l : list val) : res (list jv) :=
  match l with
  | [] => Ok []
  | x :: l' => let* j := doc f E x in let* js := all_docs E f l' in Ok (j :: js)
  end.
(** A length and the elements. *)
Definition list_of (f : fmt) : fmt :=
  Fmt (fun v => b_list (wire f) (items v))
      (fun E v => match v with VList l => let* js := all_docs E f l in Ok (JArr js) | _ => bad end).
(** 0, or 1 and the value; null or the value. *)
Definition opt (f : fmt) : fmt :=
  Fmt (fun v => match v with VOpt (Some x) => 1 :: wire f x | _ => [0] end)
      (fun E v => match v with VOpt (Some x) => doc f E x | VOpt None => Ok JNull | _ => bad end).
(** The members one after the other; an object with the members by name. *)
Fixpoint members_doc (E : float_lib) (fs : list (string * fmt)) (l : list val) : res (list (bytes * jv)) :=
  match fs, l with
  | [], [] => Ok []
  | (n, f) :: fs', x :: l' => let* j := doc f E x in let* ms := members_doc E fs' l' in Ok ((str n, j) :: ms)
  | _, _ => Undef "ill-typed value"
  end.
Definition obj (fs : list (string * fmt)) : fmt :=
  Fmt (in_order (map (fun f => wire (snd f)) fs))
      (fun E v => match v with VList l => let* ms := members_doc E fs l in Ok (JObj ms) | _ => bad end).
(** The index of the alternative (LEB128) and the alternative; a pair of its name and the value. *)
Definition one_of (fs : list (string * fmt)) : fmt :=
  Fmt (picked (map (fun f => wire (snd f)) fs))
      (fun E v => match v with
                  | VVar i x => match nthz fs i with
                                | Some (n, f) => let* j := doc f E x in Ok (JArr [JStr (str n); j])
                                | None => bad
                                end
                  | _ => bad
                  end).
(** One byte; the name of the status. *)
Definition status : fmt :=
  Fmt (wire u8)
      (fun E v => match v with
                  | VInt 0 => Ok (JStr (str "executed"))
                  | VInt 1 => Ok (JStr (str "soft_fail"))
                  | VInt 2 => Ok (JStr (str "hard_fail"))
                  | VInt 3 => Ok (JStr (str "delayed"))
                  | VInt 4 => Ok (JStr (str "expired"))
                  | VInt _ => Err E_unknown_status
                  | _ => bad
                  end).

(** ** The conversation *)
Definition position := obj [("block_num", u32); ("block_id", hash)]%string.
Definition request := one_of [
  ("get_status_request_v0", obj []);
  ("get_blocks_request_v0", obj [("start_block_num", u32); ("end_block_num", u32); ("max_messages_in_flight", u32);
     ("have_positions", list_of position); ("irreversible_only", flag); ("fetch_block", flag); ("fetch_traces", flag); ("fetch_deltas", flag)]);
  ("get_blocks_ack_request_v0", obj [("num_messages", u32)])]%string.

(** ** Blocks *)
Definition ext := obj [("type", u16); ("data", data)]%string.
Definition schedule := obj [("version", u32); ("producers", list_of (obj [("producer_name", account_name); ("block_signing_key", pub_key)]))]%string.
Definition prunable := obj [("prunable_data", one_of [
  ("prunable_data_type::full_legacy", obj [("signatures", list_of sig); ("packed_context_free_data", data)]);
  ("prunable_data_type::none", obj [("prunable_digest", hash)]);
  ("prunable_data_type::partial", obj [("signatures", list_of sig); ("context_free_segments", list_of (one_of [("checksum256", hash); ("bytes", data)]))]);
  ("prunable_data_type::full", obj [("signatures", list_of sig); ("context_free_segments", list_of data)])])]%string.
Definition receipt (trx : fmt) := obj [("status", status); ("cpu_usage_us", u32); ("net_usage_words", leb); ("trx", trx)]%string.
Definition receipt_v0 := receipt (one_of [("checksum256", hash);
  ("packed_transaction_v0", obj [("signatures", list_of sig); ("compression", u8); ("packed_context_free_data", data); ("packed_trx", data)])]%string).
Definition receipt_v1 := receipt (one_of [("checksum256", hash);
  ("packed_transaction", obj [("compression", u8); ("prunable_data", prunable); ("packed_trx", data)])]%string).
Definition header := [("timestamp", slot); ("producer", account_name); ("confirmed", u16); ("previous", hash); ("transaction_mroot", hash);
  ("action_mroot", hash); ("schedule_version", u32); ("new_producers", opt schedule); ("header_extensions", list_of ext); ("producer_signature", sig)]%string.
Definition block := one_of [
  ("signed_block_v0", obj (header ++ [("transactions", list_of receipt_v0); ("block_extensions", list_of ext)]));
  ("signed_block_v1", obj (header ++ [("prune_state", u8); ("transactions", list_of receipt_v1); ("block_extensions", list_of ext)]))]%string.

(** ** Results *)
Definition positions := [("head", position); ("last_irreversible", position)]%string.
Definition this_and_prev := [("this_block", opt position); ("prev_block", opt position)]%string.
Definition result := one_of [
  ("get_status_result_v0", obj (positions ++ [("trace_begin_block", u32); ("trace_end_block", u32);
     ("chain_state_begin_block", u32); ("chain_state_end_block", u32); ("chain_id", hash)]));
  ("get_blocks_result_v0", obj (positions ++ this_and_prev ++ [("block", opt data); ("traces", opt data); ("deltas", opt data)]));
  ("get_blocks_result_v1", obj (positions ++ this_and_prev ++ [("block", opt block); ("traces", sealed); ("deltas", sealed)]))]%string.
Definition delta := one_of [
  ("table_delta_v0", obj [("name", text); ("rows", list_of (obj [("present", flag); ("data", data)]))])]%string.

(** ** Traces *)
Definition level := obj [("actor", account_name); ("permission", account_name)]%string.
Definition act := obj [("account", account_name); ("name", account_name); ("authorization", list_of level); ("data", data)]%string.
Definition act_receipt := one_of [
  ("action_receipt_v0", obj [("receiver", account_name); ("act_digest", hash); ("global_sequence", u64); ("recv_sequence", u64);
     ("auth_sequence", list_of (obj [("account", account_name); ("sequence", u64)])); ("code_sequence", leb); ("abi_sequence", leb)])]%string.
Definition change := obj [("account", account_name); ("delta", i64)]%string.
Definition act_head := [("action_ordinal", leb); ("creator_action_ordinal", leb); ("receipt", opt act_receipt); ("receiver", account_name); ("act", act);
  ("context_free", flag); ("elapsed", i64); ("console", text); ("account_ram_deltas", list_of change)]%string.
Definition failure := [("except", opt text); ("error_code", opt u64)]%string.
Definition act_trace := one_of [
  ("action_trace_v0", obj (act_head ++ failure));
  ("action_trace_v1", obj (act_head ++ [("account_disk_deltas", list_of change)] ++ failure ++ [("return_value", data)]))]%string.
Definition trx_header := [("expiration", seconds); ("ref_block_num", u16); ("ref_block_prefix", u32); ("max_net_usage_words", leb);
  ("max_cpu_usage_ms", u8); ("delay_sec", leb)]%string.
Definition part := one_of [
  ("partial_transaction_v0", obj (trx_header ++ [("transaction_extensions", list_of ext); ("signatures", list_of sig); ("context_free_data", list_of data)]));
  ("partial_transaction_v1", obj (trx_header ++ [("transaction_extensions", list_of ext); ("prunable_data", opt prunable)]))]%string.
(** The traces of failed deferred transactions are nested, at most [depth] deep. *)
Fixpoint trace (depth : nat) : fmt := one_of [
  ("transaction_trace_v0", obj ([("id", hash); ("status", status); ("cpu_usage_us", u32); ("net_usage_words", leb); ("elapsed", i64); ("net_usage", u64);
     ("scheduled", flag); ("action_traces", list_of act_trace); ("account_ram_delta", opt change)] ++ failure ++
     [("failed_dtrx_trace", list_of (match depth with O => sealed | S d => trace d end)); ("partial", opt part)]))]%string.
Definition trx := obj (trx_header ++ [("context_free_actions", list_of act); ("actions", list_of act); ("transaction_extensions", list_of ext)]%string).

(** ** Rows of the tables in the deltas *)
Definition v0 (n : string) (fs : list (string * fmt)) : fmt := one_of [(n, obj fs)].
Definition row_account := v0 "account_v0" [("name", account_name); ("creation_date", slot); ("abi", data)]%string.
Definition row_account_metadata := v0 "account_metadata_v0" [("name", account_name); ("privileged", flag); ("last_code_update", microseconds);
  ("code", opt (obj [("vm_type", u8); ("vm_version", u8); ("code_hash", hash)]))]%string.
Definition row_code := v0 "code_v0" [("vm_type", u8); ("vm_version", u8); ("code_hash", hash); ("code", data)]%string.
Definition row_contract_table := v0 "contract_table_v0" [("code", account_name); ("scope", account_name); ("table", account_name); ("payer", account_name)]%string.
Definition keyed := [("code", account_name); ("scope", account_name); ("table", account_name); ("primary_key", u64); ("payer", account_name)]%string.
Definition row_contract_row := v0 "contract_row_v0" (keyed ++ [("value", data)]%string).
Definition row_index64 := v0 "contract_index64_v0" (keyed ++ [("secondary_key", u64)]%string).
Definition row_index128 := v0 "contract_index128_v0" (keyed ++ [("secondary_key", u128)]%string).
Definition row_index256 := v0 "contract_index256_v0" (keyed ++ [("secondary_key", hash)]%string).
Definition row_index_double := v0 "contract_index_double_v0" (keyed ++ [("secondary_key", double)]%string).
Definition row_index_long_double := v0 "contract_index_long_double_v0" (keyed ++ [("secondary_key", quad)]%string).
Definition row_key_value := v0 "key_value_v0" [("database", account_name); ("contract", account_name); ("key", data); ("value", data)]%string.
Definition weighted_key := obj [("key", pub_key); ("weight", u16)]%string.
Definition authority_schedule := obj [("version", u32); ("producers", list_of (obj [("producer_name", account_name);
  ("authority", v0 "block_signing_authority_v0" [("threshold", u32); ("keys", list_of weighted_key)])]))]%string.
Definition config := v0 "chain_config_v0" [("max_block_net_usage", u64); ("target_block_net_usage_pct", u32); ("max_transaction_net_usage", u32);
  ("base_per_transaction_net_usage", u32); ("net_usage_leeway", u32); ("context_free_discount_net_usage_num", u32);
  ("context_free_discount_net_usage_den", u32); ("max_block_cpu_usage", u32); ("target_block_cpu_usage_pct", u32);
  ("max_transaction_cpu_usage", u32); ("min_transaction_cpu_usage", u32); ("max_transaction_lifetime", u32);
  ("deferred_trx_expiration_window", u32); ("max_transaction_delay", u32); ("max_inline_action_size", u32);
  ("max_inline_action_depth", u16); ("max_authority_depth", u16)]%string.
Definition row_global_property := one_of [
  ("global_property_v0", obj [("proposed_schedule_block_num", opt u32); ("proposed_schedule", schedule); ("configuration", config)]);
  ("global_property_v1", obj [("proposed_schedule_block_num", opt u32); ("proposed_schedule", authority_schedule); ("configuration", config);
     ("chain_id", hash)])]%string.
Definition row_generated_transaction := v0 "generated_transaction_v0" [("sender", account_name); ("sender_id", u128); ("payer", account_name);
  ("trx_id", hash); ("packed_trx", data)]%string.
Definition row_protocol_state := v0 "protocol_state_v0" [("activated_protocol_features",
  list_of (v0 "activated_protocol_feature_v0" [("feature_digest", hash); ("activation_block_num", u32)]))]%string.
Definition row_permission := v0 "permission_v0" [("owner", account_name); ("name", account_name); ("parent", account_name); ("last_updated", microseconds);
  ("auth", obj [("threshold", u32); ("keys", list_of weighted_key); ("accounts", list_of (obj [("permission", level); ("weight", u16)]));
     ("waits", list_of (obj [("wait_sec", u32); ("weight", u16)]))])]%string.
Definition row_permission_link := v0 "permission_link_v0" [("account", account_name); ("code", account_name); ("message_type", account_name);
  ("required_permission", account_name)]%string.
Definition row_resource_limits := v0 "resource_limits_v0" [("owner", account_name); ("net_weight", i64); ("cpu_weight", i64); ("ram_bytes", i64)]%string.
Definition accumulator := v0 "usage_accumulator_v0" [("last_ordinal", u32); ("value_ex", u64); ("consumed", u64)]%string.
Definition row_resource_usage := v0 "resource_usage_v0" [("owner", account_name); ("net_usage", accumulator); ("cpu_usage", accumulator); ("ram_usage", u64)]%string.
Definition row_resource_limits_state := v0 "resource_limits_state_v0" [("average_block_net_usage", accumulator); ("average_block_cpu_usage", accumulator);
  ("total_net_weight", u64); ("total_cpu_weight", u64); ("total_ram_bytes", u64); ("virtual_net_limit", u64); ("virtual_cpu_limit", u64)]%string.
Definition ratio := v0 "resource_limits_ratio_v0" [("numerator", u64); ("denominator", u64)]%string.
Definition elastic := v0 "elastic_limit_parameters_v0" [("target", u64); ("max", u64); ("periods", u32); ("max_multiplier", u32);
  ("contract_rate", ratio); ("expand_rate", ratio)]%string.
Definition row_resource_limits_config := v0 "resource_limits_config_v0" [("cpu_limit_parameters", elastic); ("net_limit_parameters", elastic);
  ("account_cpu_usage_average_window", u32); ("account_net_usage_average_window", u32)]%string.
