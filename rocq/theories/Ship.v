(** * Ship: the messages of the state history protocol (include/eosio/ship_protocol.hpp)
    Every struct, alias and enum of the header, as a C++ type of TypedJson.v: the members in the order of
    EOSIO_REFLECT, those of base classes first (reflection.hpp:29-48). Default member initializers are
    not represented. *)
From Verif Require Import Base TypedBin Json Abi AbiScalar TypedJson.

Local Notation "n ::: t" := (str n, t) (at level 60).

(** ship_protocol.hpp:43-49 [transaction_status], the names of 52-61 [to_string] *)
Definition status_names : list bytes := [str "executed"; str "soft_fail"; str "hard_fail"; str "delayed"; str "expired"].
(** ship_protocol.hpp:43-49 *)
Definition transaction_status : jty := JEnum status_names.
(** ship_protocol.hpp:52-61; [status] is the underlying uint8_t. report_error (26-33) throws. *)
Definition status_to_string (status : Z) : res bytes :=
  if status =? 0 then Ok (str "executed")
  else if status =? 1 then Ok (str "soft_fail")
  else if status =? 2 then Ok (str "hard_fail")
  else if status =? 3 then Ok (str "delayed")
  else if status =? 4 then Ok (str "expired")
  else Err E_unknown_status.
(** ship_protocol.hpp:64-76 [get_transaction_status] *)
Definition get_transaction_status (s : bytes) : res Z :=
  if beq s (str "executed") then Ok 0
  else if beq s (str "soft_fail") then Ok 1
  else if beq s (str "hard_fail") then Ok 2
  else if beq s (str "delayed") then Ok 3
  else if beq s (str "expired") then Ok 4
  else Err E_unknown_status.

(** ship_protocol.hpp:36-39, 41 *)
Definition extension_t : jty := JStruct (str "extension") [
    "type" ::: JScalar B_uint16; "data" ::: JView].
(** ship_protocol.hpp:84, 86 *)
Definition get_status_request_v0_t : jty := JStruct (str "get_status_request_v0") [].
(** ship_protocol.hpp:88-91, 93 *)
Definition block_position_t : jty := JStruct (str "block_position") [
    "block_num" ::: JScalar B_uint32; "block_id" ::: JScalar B_checksum256].
(** ship_protocol.hpp:95-103, 105-106 *)
Definition get_status_result_v0_t : jty := JStruct (str "get_status_result_v0") [
    "head" ::: block_position_t; "last_irreversible" ::: block_position_t;
    "trace_begin_block" ::: JScalar B_uint32; "trace_end_block" ::: JScalar B_uint32;
    "chain_state_begin_block" ::: JScalar B_uint32; "chain_state_end_block" ::: JScalar B_uint32;
    "chain_id" ::: JScalar B_checksum256].
(** ship_protocol.hpp:108-117, 119-120 *)
Definition get_blocks_request_v0_t : jty := JStruct (str "get_blocks_request_v0") [
    "start_block_num" ::: JScalar B_uint32; "end_block_num" ::: JScalar B_uint32;
    "max_messages_in_flight" ::: JScalar B_uint32; "have_positions" ::: JVec block_position_t;
    "irreversible_only" ::: JScalar B_bool; "fetch_block" ::: JScalar B_bool;
    "fetch_traces" ::: JScalar B_bool; "fetch_deltas" ::: JScalar B_bool].
(** ship_protocol.hpp:122-124, 126 *)
Definition get_blocks_ack_request_v0_t : jty := JStruct (str "get_blocks_ack_request_v0") [
    "num_messages" ::: JScalar B_uint32].
(** ship_protocol.hpp:128 *)
Definition request_t : jty := JVariant [get_status_request_v0_t; get_blocks_request_v0_t;
  get_blocks_ack_request_v0_t].
(** ship_protocol.hpp:130-135, 137 *)
Definition get_blocks_result_base_fields : list (bytes * jty) := [
    "head" ::: block_position_t; "last_irreversible" ::: block_position_t;
    "this_block" ::: JOpt block_position_t; "prev_block" ::: JOpt block_position_t].
(** ship_protocol.hpp:130-135, 137 *)
Definition get_blocks_result_base_t : jty := JStruct (str "get_blocks_result_base") get_blocks_result_base_fields.
(** ship_protocol.hpp:139-143, 145 *)
Definition get_blocks_result_v0_t : jty := JStruct (str "get_blocks_result_v0") (get_blocks_result_base_fields ++ [
    "block" ::: JOpt JView; "traces" ::: JOpt JView; "deltas" ::: JOpt JView]).
(** ship_protocol.hpp:147-150, 152 *)
Definition row_t : jty := JStruct (str "row") [
    "present" ::: JScalar B_bool; "data" ::: JView].
(** ship_protocol.hpp:154-157, 159 *)
Definition table_delta_v0_t : jty := JStruct (str "table_delta_v0") [
    "name" ::: JScalar B_string; "rows" ::: JVec row_t].
(** ship_protocol.hpp:161 *)
Definition table_delta_t : jty := JVariant [table_delta_v0_t].
(** ship_protocol.hpp:163-166, 168 *)
Definition permission_level_t : jty := JStruct (str "permission_level") [
    "actor" ::: JScalar B_name; "permission" ::: JScalar B_name].
(** ship_protocol.hpp:170-175, 177 *)
Definition action_t : jty := JStruct (str "action") [
    "account" ::: JScalar B_name; "name" ::: JScalar B_name; "authorization" ::: JVec permission_level_t;
    "data" ::: JView].
(** ship_protocol.hpp:179-182, 184 *)
Definition account_auth_sequence_t : jty := JStruct (str "account_auth_sequence") [
    "account" ::: JScalar B_name; "sequence" ::: JScalar B_uint64].
(** ship_protocol.hpp:187-195, 197-198 *)
Definition action_receipt_v0_t : jty := JStruct (str "action_receipt_v0") [
    "receiver" ::: JScalar B_name; "act_digest" ::: JScalar B_checksum256;
    "global_sequence" ::: JScalar B_uint64; "recv_sequence" ::: JScalar B_uint64;
    "auth_sequence" ::: JVec account_auth_sequence_t; "code_sequence" ::: JScalar B_varuint32;
    "abi_sequence" ::: JScalar B_varuint32].
(** ship_protocol.hpp:200 *)
Definition action_receipt_t : jty := JVariant [action_receipt_v0_t].
(** ship_protocol.hpp:202-205, 207 *)
Definition account_delta_t : jty := JStruct (str "account_delta") [
    "account" ::: JScalar B_name; "delta" ::: JScalar B_int64].
(** ship_protocol.hpp:210-222, 224-225 *)
Definition action_trace_v0_t : jty := JStruct (str "action_trace_v0") [
    "action_ordinal" ::: JScalar B_varuint32; "creator_action_ordinal" ::: JScalar B_varuint32;
    "receipt" ::: JOpt action_receipt_t; "receiver" ::: JScalar B_name; "act" ::: action_t;
    "context_free" ::: JScalar B_bool; "elapsed" ::: JScalar B_int64; "console" ::: JScalar B_string;
    "account_ram_deltas" ::: JVec account_delta_t; "except" ::: JOpt (JScalar B_string);
    "error_code" ::: JOpt (JScalar B_uint64)].
(** ship_protocol.hpp:227-241, 243-244 *)
Definition action_trace_v1_t : jty := JStruct (str "action_trace_v1") [
    "action_ordinal" ::: JScalar B_varuint32; "creator_action_ordinal" ::: JScalar B_varuint32;
    "receipt" ::: JOpt action_receipt_t; "receiver" ::: JScalar B_name; "act" ::: action_t;
    "context_free" ::: JScalar B_bool; "elapsed" ::: JScalar B_int64; "console" ::: JScalar B_string;
    "account_ram_deltas" ::: JVec account_delta_t; "account_disk_deltas" ::: JVec account_delta_t;
    "except" ::: JOpt (JScalar B_string); "error_code" ::: JOpt (JScalar B_uint64); "return_value" ::: JView].
(** ship_protocol.hpp:246 *)
Definition action_trace_t : jty := JVariant [action_trace_v0_t; action_trace_v1_t].
(** ship_protocol.hpp:249-251, 276 *)
Definition prunable_none_t : jty := JStruct (str "prunable_data_type::none") [
    "prunable_digest" ::: JScalar B_checksum256].
(** ship_protocol.hpp:253 *)
Definition prunable_segment_type_t : jty := JVariant [JScalar B_checksum256; JView].
(** ship_protocol.hpp:255-258, 277 *)
Definition prunable_partial_t : jty := JStruct (str "prunable_data_type::partial") [
    "signatures" ::: JVec (JScalar B_signature); "context_free_segments" ::: JVec prunable_segment_type_t].
(** ship_protocol.hpp:260-263, 278 *)
Definition prunable_full_t : jty := JStruct (str "prunable_data_type::full") [
    "signatures" ::: JVec (JScalar B_signature); "context_free_segments" ::: JVec JView].
(** ship_protocol.hpp:265-268, 279 *)
Definition prunable_full_legacy_t : jty := JStruct (str "prunable_data_type::full_legacy") [
    "signatures" ::: JVec (JScalar B_signature); "packed_context_free_data" ::: JView].
(** ship_protocol.hpp:270 *)
Definition prunable_prunable_data_t_t : jty := JVariant [prunable_full_legacy_t; prunable_none_t; prunable_partial_t;
  prunable_full_t].
(** ship_protocol.hpp:248-273, 275 *)
Definition prunable_data_type_t : jty := JStruct (str "prunable_data_type") [
    "prunable_data" ::: prunable_prunable_data_t_t].
(** ship_protocol.hpp:281-291, 293-294 *)
Definition partial_transaction_v0_t : jty := JStruct (str "partial_transaction_v0") [
    "expiration" ::: JScalar B_time_point_sec; "ref_block_num" ::: JScalar B_uint16;
    "ref_block_prefix" ::: JScalar B_uint32; "max_net_usage_words" ::: JScalar B_varuint32;
    "max_cpu_usage_ms" ::: JScalar B_uint8; "delay_sec" ::: JScalar B_varuint32;
    "transaction_extensions" ::: JVec extension_t; "signatures" ::: JVec (JScalar B_signature);
    "context_free_data" ::: JVec JView].
(** ship_protocol.hpp:296-305, 307-308 *)
Definition partial_transaction_v1_t : jty := JStruct (str "partial_transaction_v1") [
    "expiration" ::: JScalar B_time_point_sec; "ref_block_num" ::: JScalar B_uint16;
    "ref_block_prefix" ::: JScalar B_uint32; "max_net_usage_words" ::: JScalar B_varuint32;
    "max_cpu_usage_ms" ::: JScalar B_uint8; "delay_sec" ::: JScalar B_varuint32;
    "transaction_extensions" ::: JVec extension_t; "prunable_data" ::: JOpt prunable_data_type_t].
(** ship_protocol.hpp:310 *)
Definition partial_transaction_t : jty := JVariant [partial_transaction_v0_t; partial_transaction_v1_t].
(** ship_protocol.hpp:314-328, 330-331 *)
Definition transaction_trace_v0_t : jty := JStruct (str "transaction_trace_v0") [
    "id" ::: JScalar B_checksum256; "status" ::: transaction_status; "cpu_usage_us" ::: JScalar B_uint32;
    "net_usage_words" ::: JScalar B_varuint32; "elapsed" ::: JScalar B_int64; "net_usage" ::: JScalar B_uint64;
    "scheduled" ::: JScalar B_bool; "action_traces" ::: JVec action_trace_t;
    "account_ram_delta" ::: JOpt account_delta_t; "except" ::: JOpt (JScalar B_string);
    "error_code" ::: JOpt (JScalar B_uint64); "failed_dtrx_trace" ::: JVec (JRef 0);
    "partial" ::: JOpt partial_transaction_t].
(** ship_protocol.hpp:333 *)
Definition transaction_trace_t : jty := JVariant [transaction_trace_v0_t].
(** ship_protocol.hpp:354-357, 359 *)
Definition producer_key_t : jty := JStruct (str "producer_key") [
    "producer_name" ::: JScalar B_name; "block_signing_key" ::: JScalar B_public_key].
(** ship_protocol.hpp:361-364, 366 *)
Definition producer_schedule_t : jty := JStruct (str "producer_schedule") [
    "version" ::: JScalar B_uint32; "producers" ::: JVec producer_key_t].
(** ship_protocol.hpp:368-372, 374 *)
Definition transaction_receipt_header_fields : list (bytes * jty) := [
    "status" ::: transaction_status; "cpu_usage_us" ::: JScalar B_uint32;
    "net_usage_words" ::: JScalar B_varuint32].
(** ship_protocol.hpp:368-372, 374 *)
Definition transaction_receipt_header_t : jty := JStruct (str "transaction_receipt_header") transaction_receipt_header_fields.
(** ship_protocol.hpp:376-381, 383 *)
Definition packed_transaction_v0_t : jty := JStruct (str "packed_transaction_v0") [
    "signatures" ::: JVec (JScalar B_signature); "compression" ::: JScalar B_uint8;
    "packed_context_free_data" ::: JView; "packed_trx" ::: JView].
(** ship_protocol.hpp:385-389, 391 *)
Definition packed_transaction_t : jty := JStruct (str "packed_transaction") [
    "compression" ::: JScalar B_uint8; "prunable_data" ::: prunable_data_type_t; "packed_trx" ::: JView].
(** ship_protocol.hpp:393 *)
Definition transaction_variant_v0_t : jty := JVariant [JScalar B_checksum256; packed_transaction_v0_t].
(** ship_protocol.hpp:395-397, 399 *)
Definition transaction_receipt_v0_t : jty := JStruct (str "transaction_receipt_v0") (transaction_receipt_header_fields ++ [
    "trx" ::: transaction_variant_v0_t]).
(** ship_protocol.hpp:401 *)
Definition transaction_variant_t : jty := JVariant [JScalar B_checksum256; packed_transaction_t].
(** ship_protocol.hpp:403-405, 407 *)
Definition transaction_receipt_t : jty := JStruct (str "transaction_receipt") (transaction_receipt_header_fields ++ [
    "trx" ::: transaction_variant_t]).
(** ship_protocol.hpp:409-419, 421-422 *)
Definition block_header_fields : list (bytes * jty) := [
    "timestamp" ::: JScalar B_block_timestamp; "producer" ::: JScalar B_name; "confirmed" ::: JScalar B_uint16;
    "previous" ::: JScalar B_checksum256; "transaction_mroot" ::: JScalar B_checksum256;
    "action_mroot" ::: JScalar B_checksum256; "schedule_version" ::: JScalar B_uint32;
    "new_producers" ::: JOpt producer_schedule_t; "header_extensions" ::: JVec extension_t].
(** ship_protocol.hpp:409-419, 421-422 *)
Definition block_header_t : jty := JStruct (str "block_header") block_header_fields.
(** ship_protocol.hpp:424-426, 428 *)
Definition signed_block_header_fields : list (bytes * jty) := block_header_fields ++ [
    "producer_signature" ::: JScalar B_signature].
(** ship_protocol.hpp:424-426, 428 *)
Definition signed_block_header_t : jty := JStruct (str "signed_block_header") signed_block_header_fields.
(** ship_protocol.hpp:430-433, 435 *)
Definition signed_block_v0_t : jty := JStruct (str "signed_block_v0") (signed_block_header_fields ++ [
    "transactions" ::: JVec transaction_receipt_v0_t; "block_extensions" ::: JVec extension_t]).
(** ship_protocol.hpp:437-441, 443 *)
Definition signed_block_v1_t : jty := JStruct (str "signed_block_v1") (signed_block_header_fields ++ [
    "prune_state" ::: JScalar B_uint8; "transactions" ::: JVec transaction_receipt_t;
    "block_extensions" ::: JVec extension_t]).
(** ship_protocol.hpp:445 *)
Definition signed_block_variant_t : jty := JVariant [signed_block_v0_t; signed_block_v1_t].
(** ship_protocol.hpp:447-451, 453 *)
Definition get_blocks_result_v1_t : jty := JStruct (str "get_blocks_result_v1") (get_blocks_result_base_fields ++ [
    "block" ::: JOpt signed_block_variant_t; "traces" ::: JOpaque (JVec transaction_trace_t);
    "deltas" ::: JOpaque (JVec table_delta_t)]).
(** ship_protocol.hpp:454 *)
Definition result_t : jty := JVariant [get_status_result_v0_t; get_blocks_result_v0_t; get_blocks_result_v1_t].
(** ship_protocol.hpp:456-463, 465-466 *)
Definition transaction_header_fields : list (bytes * jty) := [
    "expiration" ::: JScalar B_time_point_sec; "ref_block_num" ::: JScalar B_uint16;
    "ref_block_prefix" ::: JScalar B_uint32; "max_net_usage_words" ::: JScalar B_varuint32;
    "max_cpu_usage_ms" ::: JScalar B_uint8; "delay_sec" ::: JScalar B_varuint32].
(** ship_protocol.hpp:456-463, 465-466 *)
Definition transaction_header_t : jty := JStruct (str "transaction_header") transaction_header_fields.
(** ship_protocol.hpp:468-472, 474 *)
Definition transaction_t : jty := JStruct (str "transaction") (transaction_header_fields ++ [
    "context_free_actions" ::: JVec action_t; "actions" ::: JVec action_t;
    "transaction_extensions" ::: JVec extension_t]).
(** ship_protocol.hpp:476-480, 482 *)
Definition code_id_t : jty := JStruct (str "code_id") [
    "vm_type" ::: JScalar B_uint8; "vm_version" ::: JScalar B_uint8; "code_hash" ::: JScalar B_checksum256].
(** ship_protocol.hpp:484-488, 490 *)
Definition account_v0_t : jty := JStruct (str "account_v0") [
    "name" ::: JScalar B_name; "creation_date" ::: JScalar B_block_timestamp; "abi" ::: JView].
(** ship_protocol.hpp:492 *)
Definition account_t : jty := JVariant [account_v0_t].
(** ship_protocol.hpp:494-499, 501 *)
Definition account_metadata_v0_t : jty := JStruct (str "account_metadata_v0") [
    "name" ::: JScalar B_name; "privileged" ::: JScalar B_bool; "last_code_update" ::: JScalar B_time_point;
    "code" ::: JOpt code_id_t].
(** ship_protocol.hpp:503 *)
Definition account_metadata_t : jty := JVariant [account_metadata_v0_t].
(** ship_protocol.hpp:505-510, 512 *)
Definition code_v0_t : jty := JStruct (str "code_v0") [
    "vm_type" ::: JScalar B_uint8; "vm_version" ::: JScalar B_uint8; "code_hash" ::: JScalar B_checksum256;
    "code" ::: JView].
(** ship_protocol.hpp:514 *)
Definition code_t : jty := JVariant [code_v0_t].
(** ship_protocol.hpp:516-521, 523 *)
Definition contract_table_v0_t : jty := JStruct (str "contract_table_v0") [
    "code" ::: JScalar B_name; "scope" ::: JScalar B_name; "table" ::: JScalar B_name;
    "payer" ::: JScalar B_name].
(** ship_protocol.hpp:525 *)
Definition contract_table_t : jty := JVariant [contract_table_v0_t].
(** ship_protocol.hpp:527-534, 536 *)
Definition contract_row_v0_t : jty := JStruct (str "contract_row_v0") [
    "code" ::: JScalar B_name; "scope" ::: JScalar B_name; "table" ::: JScalar B_name;
    "primary_key" ::: JScalar B_uint64; "payer" ::: JScalar B_name; "value" ::: JView].
(** ship_protocol.hpp:538 *)
Definition contract_row_t : jty := JVariant [contract_row_v0_t].
(** ship_protocol.hpp:540-547, 549 *)
Definition contract_index64_v0_t : jty := JStruct (str "contract_index64_v0") [
    "code" ::: JScalar B_name; "scope" ::: JScalar B_name; "table" ::: JScalar B_name;
    "primary_key" ::: JScalar B_uint64; "payer" ::: JScalar B_name; "secondary_key" ::: JScalar B_uint64].
(** ship_protocol.hpp:551 *)
Definition contract_index64_t : jty := JVariant [contract_index64_v0_t].
(** ship_protocol.hpp:553-560, 562 *)
Definition contract_index128_v0_t : jty := JStruct (str "contract_index128_v0") [
    "code" ::: JScalar B_name; "scope" ::: JScalar B_name; "table" ::: JScalar B_name;
    "primary_key" ::: JScalar B_uint64; "payer" ::: JScalar B_name; "secondary_key" ::: JScalar B_uint128].
(** ship_protocol.hpp:564 *)
Definition contract_index128_t : jty := JVariant [contract_index128_v0_t].
(** ship_protocol.hpp:566-573, 575 *)
Definition contract_index256_v0_t : jty := JStruct (str "contract_index256_v0") [
    "code" ::: JScalar B_name; "scope" ::: JScalar B_name; "table" ::: JScalar B_name;
    "primary_key" ::: JScalar B_uint64; "payer" ::: JScalar B_name; "secondary_key" ::: JScalar B_checksum256].
(** ship_protocol.hpp:577 *)
Definition contract_index256_t : jty := JVariant [contract_index256_v0_t].
(** ship_protocol.hpp:579-586, 588 *)
Definition contract_index_double_v0_t : jty := JStruct (str "contract_index_double_v0") [
    "code" ::: JScalar B_name; "scope" ::: JScalar B_name; "table" ::: JScalar B_name;
    "primary_key" ::: JScalar B_uint64; "payer" ::: JScalar B_name; "secondary_key" ::: JScalar B_float64].
(** ship_protocol.hpp:590 *)
Definition contract_index_double_t : jty := JVariant [contract_index_double_v0_t].
(** ship_protocol.hpp:592-599, 601 *)
Definition contract_index_long_double_v0_t : jty := JStruct (str "contract_index_long_double_v0") [
    "code" ::: JScalar B_name; "scope" ::: JScalar B_name; "table" ::: JScalar B_name;
    "primary_key" ::: JScalar B_uint64; "payer" ::: JScalar B_name; "secondary_key" ::: JScalar B_float128].
(** ship_protocol.hpp:603 *)
Definition contract_index_long_double_t : jty := JVariant [contract_index_long_double_v0_t].
(** ship_protocol.hpp:605-610, 612 *)
Definition key_value_v0_t : jty := JStruct (str "key_value_v0") [
    "database" ::: JScalar B_name; "contract" ::: JScalar B_name; "key" ::: JView; "value" ::: JView].
(** ship_protocol.hpp:614 *)
Definition key_value_t : jty := JVariant [key_value_v0_t].
(** ship_protocol.hpp:616-619, 621 *)
Definition key_weight_t : jty := JStruct (str "key_weight") [
    "key" ::: JScalar B_public_key; "weight" ::: JScalar B_uint16].
(** ship_protocol.hpp:623-626, 628 *)
Definition block_signing_authority_v0_t : jty := JStruct (str "block_signing_authority_v0") [
    "threshold" ::: JScalar B_uint32; "keys" ::: JVec key_weight_t].
(** ship_protocol.hpp:630 *)
Definition block_signing_authority_t : jty := JVariant [block_signing_authority_v0_t].
(** ship_protocol.hpp:632-635, 637 *)
Definition producer_authority_t : jty := JStruct (str "producer_authority") [
    "producer_name" ::: JScalar B_name; "authority" ::: block_signing_authority_t].
(** ship_protocol.hpp:639-642, 644 *)
Definition producer_authority_schedule_t : jty := JStruct (str "producer_authority_schedule") [
    "version" ::: JScalar B_uint32; "producers" ::: JVec producer_authority_t].
(** ship_protocol.hpp:646-664, 666-671 *)
Definition chain_config_v0_t : jty := JStruct (str "chain_config_v0") [
    "max_block_net_usage" ::: JScalar B_uint64; "target_block_net_usage_pct" ::: JScalar B_uint32;
    "max_transaction_net_usage" ::: JScalar B_uint32; "base_per_transaction_net_usage" ::: JScalar B_uint32;
    "net_usage_leeway" ::: JScalar B_uint32; "context_free_discount_net_usage_num" ::: JScalar B_uint32;
    "context_free_discount_net_usage_den" ::: JScalar B_uint32; "max_block_cpu_usage" ::: JScalar B_uint32;
    "target_block_cpu_usage_pct" ::: JScalar B_uint32; "max_transaction_cpu_usage" ::: JScalar B_uint32;
    "min_transaction_cpu_usage" ::: JScalar B_uint32; "max_transaction_lifetime" ::: JScalar B_uint32;
    "deferred_trx_expiration_window" ::: JScalar B_uint32; "max_transaction_delay" ::: JScalar B_uint32;
    "max_inline_action_size" ::: JScalar B_uint32; "max_inline_action_depth" ::: JScalar B_uint16;
    "max_authority_depth" ::: JScalar B_uint16].
(** ship_protocol.hpp:673 *)
Definition chain_config_t : jty := JVariant [chain_config_v0_t].
(** ship_protocol.hpp:675-679, 681 *)
Definition global_property_v0_t : jty := JStruct (str "global_property_v0") [
    "proposed_schedule_block_num" ::: JOpt (JScalar B_uint32); "proposed_schedule" ::: producer_schedule_t;
    "configuration" ::: chain_config_t].
(** ship_protocol.hpp:683-688, 690 *)
Definition global_property_v1_t : jty := JStruct (str "global_property_v1") [
    "proposed_schedule_block_num" ::: JOpt (JScalar B_uint32);
    "proposed_schedule" ::: producer_authority_schedule_t; "configuration" ::: chain_config_t;
    "chain_id" ::: JScalar B_checksum256].
(** ship_protocol.hpp:692 *)
Definition global_property_t : jty := JVariant [global_property_v0_t; global_property_v1_t].
(** ship_protocol.hpp:694-700, 702 *)
Definition generated_transaction_v0_t : jty := JStruct (str "generated_transaction_v0") [
    "sender" ::: JScalar B_name; "sender_id" ::: JScalar B_uint128; "payer" ::: JScalar B_name;
    "trx_id" ::: JScalar B_checksum256; "packed_trx" ::: JView].
(** ship_protocol.hpp:704 *)
Definition generated_transaction_t : jty := JVariant [generated_transaction_v0_t].
(** ship_protocol.hpp:706-709, 711 *)
Definition activated_protocol_feature_v0_t : jty := JStruct (str "activated_protocol_feature_v0") [
    "feature_digest" ::: JScalar B_checksum256; "activation_block_num" ::: JScalar B_uint32].
(** ship_protocol.hpp:713 *)
Definition activated_protocol_feature_t : jty := JVariant [activated_protocol_feature_v0_t].
(** ship_protocol.hpp:715-717, 719 *)
Definition protocol_state_v0_t : jty := JStruct (str "protocol_state_v0") [
    "activated_protocol_features" ::: JVec activated_protocol_feature_t].
(** ship_protocol.hpp:721 *)
Definition protocol_state_t : jty := JVariant [protocol_state_v0_t].
(** ship_protocol.hpp:723-726, 728 *)
Definition permission_level_weight_t : jty := JStruct (str "permission_level_weight") [
    "permission" ::: permission_level_t; "weight" ::: JScalar B_uint16].
(** ship_protocol.hpp:730-733, 735 *)
Definition wait_weight_t : jty := JStruct (str "wait_weight") [
    "wait_sec" ::: JScalar B_uint32; "weight" ::: JScalar B_uint16].
(** ship_protocol.hpp:737-742, 744 *)
Definition authority_t : jty := JStruct (str "authority") [
    "threshold" ::: JScalar B_uint32; "keys" ::: JVec key_weight_t;
    "accounts" ::: JVec permission_level_weight_t; "waits" ::: JVec wait_weight_t].
(** ship_protocol.hpp:746-752, 754 *)
Definition permission_v0_t : jty := JStruct (str "permission_v0") [
    "owner" ::: JScalar B_name; "name" ::: JScalar B_name; "parent" ::: JScalar B_name;
    "last_updated" ::: JScalar B_time_point; "auth" ::: authority_t].
(** ship_protocol.hpp:756 *)
Definition permission_t : jty := JVariant [permission_v0_t].
(** ship_protocol.hpp:758-763, 765 *)
Definition permission_link_v0_t : jty := JStruct (str "permission_link_v0") [
    "account" ::: JScalar B_name; "code" ::: JScalar B_name; "message_type" ::: JScalar B_name;
    "required_permission" ::: JScalar B_name].
(** ship_protocol.hpp:767 *)
Definition permission_link_t : jty := JVariant [permission_link_v0_t].
(** ship_protocol.hpp:769-774, 776 *)
Definition resource_limits_v0_t : jty := JStruct (str "resource_limits_v0") [
    "owner" ::: JScalar B_name; "net_weight" ::: JScalar B_int64; "cpu_weight" ::: JScalar B_int64;
    "ram_bytes" ::: JScalar B_int64].
(** ship_protocol.hpp:778 *)
Definition resource_limits_t : jty := JVariant [resource_limits_v0_t].
(** ship_protocol.hpp:780-784, 786 *)
Definition usage_accumulator_v0_t : jty := JStruct (str "usage_accumulator_v0") [
    "last_ordinal" ::: JScalar B_uint32; "value_ex" ::: JScalar B_uint64; "consumed" ::: JScalar B_uint64].
(** ship_protocol.hpp:788 *)
Definition usage_accumulator_t : jty := JVariant [usage_accumulator_v0_t].
(** ship_protocol.hpp:790-795, 797 *)
Definition resource_usage_v0_t : jty := JStruct (str "resource_usage_v0") [
    "owner" ::: JScalar B_name; "net_usage" ::: usage_accumulator_t; "cpu_usage" ::: usage_accumulator_t;
    "ram_usage" ::: JScalar B_uint64].
(** ship_protocol.hpp:799 *)
Definition resource_usage_t : jty := JVariant [resource_usage_v0_t].
(** ship_protocol.hpp:801-809, 811-812 *)
Definition resource_limits_state_v0_t : jty := JStruct (str "resource_limits_state_v0") [
    "average_block_net_usage" ::: usage_accumulator_t; "average_block_cpu_usage" ::: usage_accumulator_t;
    "total_net_weight" ::: JScalar B_uint64; "total_cpu_weight" ::: JScalar B_uint64;
    "total_ram_bytes" ::: JScalar B_uint64; "virtual_net_limit" ::: JScalar B_uint64;
    "virtual_cpu_limit" ::: JScalar B_uint64].
(** ship_protocol.hpp:814 *)
Definition resource_limits_state_t : jty := JVariant [resource_limits_state_v0_t].
(** ship_protocol.hpp:816-819, 821 *)
Definition resource_limits_ratio_v0_t : jty := JStruct (str "resource_limits_ratio_v0") [
    "numerator" ::: JScalar B_uint64; "denominator" ::: JScalar B_uint64].
(** ship_protocol.hpp:823 *)
Definition resource_limits_ratio_t : jty := JVariant [resource_limits_ratio_v0_t].
(** ship_protocol.hpp:825-832, 834 *)
Definition elastic_limit_parameters_v0_t : jty := JStruct (str "elastic_limit_parameters_v0") [
    "target" ::: JScalar B_uint64; "max" ::: JScalar B_uint64; "periods" ::: JScalar B_uint32;
    "max_multiplier" ::: JScalar B_uint32; "contract_rate" ::: resource_limits_ratio_t;
    "expand_rate" ::: resource_limits_ratio_t].
(** ship_protocol.hpp:836 *)
Definition elastic_limit_parameters_t : jty := JVariant [elastic_limit_parameters_v0_t].
(** ship_protocol.hpp:838-843, 845-846 *)
Definition resource_limits_config_v0_t : jty := JStruct (str "resource_limits_config_v0") [
    "cpu_limit_parameters" ::: elastic_limit_parameters_t;
    "net_limit_parameters" ::: elastic_limit_parameters_t;
    "account_cpu_usage_average_window" ::: JScalar B_uint32;
    "account_net_usage_average_window" ::: JScalar B_uint32].
(** ship_protocol.hpp:848 *)
Definition resource_limits_config_t : jty := JVariant [resource_limits_config_v0_t].

(** ship_protocol.hpp:335-352 [recurse_transaction_trace]: reads and writes its only member. *)
Definition ship_jenv (n : nat) : jty := transaction_trace_t.
(** The binary layout of it (the same lines). *)
Definition ship_env (n : nat) : ty := erase (ship_jenv n).
