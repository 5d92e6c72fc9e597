{
 "claims": [
  {
   "property": "C01",
   "status": "proved",
   "theorems": [
    "C01_bytes_round_trip",
    "C01_fixed_round_trip",
    "C01_uint64_round_trip",
    "C01_uint256_round_trip",
    "C01_vector_round_trip",
    "C01_encoders_follow_spec"
   ],
   "note": ""
  },
  {
   "property": "C02",
   "status": "proved",
   "theorems": [
    "C02_bytes_canonical",
    "C02_uint64_canonical",
    "C02_uint256_canonical",
    "C02_fixed_canonical",
    "C02_bool_canonical",
    "C02_spec_prefix_free"
   ],
   "note": ""
  },
  {
   "property": "C03",
   "status": "proved",
   "theorems": [
    "C03_primitive_lengths",
    "C03_vector_length",
    "C03_transaction_length",
    "C03_header_length",
    "C03_log_length"
   ],
   "note": ""
  },
  {
   "property": "C04",
   "status": "proved",
   "theorems": [
    "C04_transaction_round_trip",
    "C04_encoding_is_spec"
   ],
   "note": "Only the wrapped (block-body) form has a decoder."
  },
  {
   "property": "C05",
   "status": "partial",
   "theorems": [
    "C05_legacy_canonical_partial",
    "C05_typed_canonical_partial",
    "C05_transaction_canonical_refuted"
   ],
   "note": "Refuted by the code for typed transactions (inner list length unchecked); legacy canonical, typed canonical up to that length."
  },
  {
   "property": "C06",
   "status": "proved",
   "theorems": [
    "C06_header_round_trip",
    "C06_body_round_trip",
    "C06_block_decoding"
   ],
   "note": "Sender cache is not part of the encoding (no_sender)."
  },
  {
   "property": "C07",
   "status": "proved",
   "theorems": [
    "C07_header_canonical",
    "C07_header_preimage_injective",
    "C07_seal_preimage"
   ],
   "note": ""
  },
  {
   "property": "C08",
   "status": "partial",
   "theorems": [
    "C08_primitive_decoders_safe",
    "C08_header_decoder_safe",
    "C08_transaction_decoder_safe_partial",
    "C08_body_decoder_safe_partial",
    "C08_block_decoder_safe_partial",
    "C08_transaction_decoder_refuted",
    "C08_account_decoder_safe_partial",
    "C08_account_encodings_framed",
    "C08_account_decoder_refuted"
   ],
   "note": "Primitive and header decoders proved safe; transaction/body/block decoders refuted: from[0] read on an exhausted view; account storage decoder refuted: unchecked length byte. The partial theorems show these are the only cases."
  },
  {
   "property": "C09",
   "status": "proved",
   "theorems": [
    "C09_account_roundtrip",
    "C09_account_roundtrip_omitting_code_hash",
    "C09_encoding_length",
    "C09_extract_incarnation_of_encoding",
    "C09_extract_incarnation_agrees"
   ],
   "note": ""
  },
  {
   "property": "C10",
   "status": "proved",
   "theorems": [
    "C10_account_rlp",
    "C10_account_rlp_injective"
   ],
   "note": ""
  },
  {
   "property": "C11",
   "status": "proved",
   "theorems": [
    "C11_bloom_exact",
    "C11_bloom_size",
    "C11_join_concatenates"
   ],
   "note": ""
  },
  {
   "property": "C12",
   "status": "proved",
   "theorems": [
    "C12_from_to_hex",
    "C12_from_prefixed_hex",
    "C12_from_hex_exact",
    "C12_to_hex_size"
   ],
   "note": ""
  },
  {
   "property": "C13",
   "status": "proved",
   "theorems": [
    "C13_left_pad",
    "C13_right_pad",
    "C13_to_bytes_short",
    "C13_to_bytes_long",
    "C13_zeroless_view",
    "C13_zeroless_value",
    "C13_prefix_length"
   ],
   "note": "A view inside a too small scratch buffer is excluded (it dangles after the resize)."
  },
  {
   "property": "C14",
   "status": "proved",
   "theorems": [
    "C14_total",
    "C14_get",
    "C14_size",
    "C14_trace"
   ],
   "note": ""
  },
  {
   "property": "C15",
   "status": "proved",
   "theorems": [
    "C15_total",
    "C15_sound",
    "C15_put_get"
   ],
   "note": ""
  },
  {
   "property": "C16",
   "status": "proved",
   "theorems": [
    "C16_intrinsic_gas",
    "C16_monotone"
   ],
   "note": ""
  },
  {
   "property": "C17",
   "status": "proved",
   "theorems": [
    "C17_difficulty",
    "C17_rules_total",
    "C17_minimum",
    "C17_in_range"
   ],
   "note": "No wrap is proved for block numbers below 25,000,000 and parent difficulty below 2^254; the bomb itself leaves 256 bits for block numbers beyond the shift width."
  },
  {
   "property": "C18",
   "status": "proved",
   "theorems": [
    "C18_base_fee",
    "C18_bounded_change",
    "C18_bounded_even"
   ],
   "note": "The parent must carry a base fee below 2^192 and gas limit at least 2; the code dereferences an empty optional or divides by zero otherwise."
  },
  {
   "property": "C19",
   "status": "proved",
   "theorems": [
    "C19_revision_latest",
    "C19_revision_monotone",
    "C19_revision_block",
    "C19_set_revision_block",
    "C19_set_revision_block_rest",
    "C19_json_round_trip",
    "C19_json_yields_valid_config",
    "C19_equality"
   ],
   "note": ""
  },
  {
   "property": "C20",
   "status": "partial",
   "theorems": [
    "C20_verdict_partial",
    "C20_valid_accepted",
    "C20_verdict_unique",
    "C20_signature_rule_refuted"
   ],
   "note": "Exact verdict whenever r (and s before Homestead) is below the group order; refuted otherwise: is_valid_signature combines the two upper-bound checks with && so a signature with r = n and a small s is accepted."
  },
  {
   "property": "C21",
   "status": "proved",
   "theorems": [
    "C21_verdict",
    "C21_ok_iff"
   ],
   "note": ""
  },
  {
   "property": "C22",
   "status": "proved",
   "theorems": [
    "C22_ommer_check",
    "C22_block_verdict"
   ],
   "note": "Full pre_validate_block verdict, with ommer rules; keccak, the seal check and the transaction root are parameters."
  },
  {
   "property": "C23",
   "status": "partial",
   "theorems": [
    "C23_valid_accepted",
    "C23_accepted_partial",
    "C23_range_refuted",
    "C23_v_round_trip",
    "C23_v_inverse",
    "C23_v_eip155",
    "C23_bad_v_chain_id_partial"
   ],
   "note": "Refuted: only r and s both at or above n are rejected. The exact accepted set is proved, as are the v round trips; bad v values are mapped to chain ids above 2^254."
  },
  {
   "property": "C24",
   "status": "proved",
   "theorems": [
    "C24_snapshot_revert"
   ],
   "note": "Full: any history before, between and after, for any database and with no exclusions, by refinement to a machine whose snapshots are copies of the world (ExactSpec). Storage may be written only in existing accounts; C24_absent_account shows why."
  },
  {
   "property": "C25",
   "status": "partial",
   "theorems": [
    "C25_refines_partial",
    "C25_exact",
    "C25_refines_refuted"
   ],
   "note": "C25_exact: every lawful history is answered as by a reference machine with incarnations. Against the protocol's machine (created contracts have no storage) C25_refines_partial excludes creation at a revived address, and C25_refines_refuted shows that case goes wrong."
  },
  {
   "property": "C26",
   "status": "proved",
   "theorems": [
    "C26_boundary",
    "C26_observed"
   ],
   "note": "Full: C26_boundary against the exact reference machine, C26_observed in terms of the queries alone; both before and after Spurious Dragon; any visiting order."
  },
  {
   "property": "C27",
   "status": "partial",
   "theorems": [
    "C27_write_back_partial",
    "C27_blocks_partial",
    "C27_exact",
    "C27_blocks_exact",
    "C27_lost_code_refuted"
   ],
   "note": "C27_exact and C27_blocks_exact hold for every lawful history, against the machine with incarnations; what they except: slots left by an earlier life under an incarnation that is taken on again, and code set in an account whose incarnation is old (C27_lost_code_refuted). The other theorems exclude creation at a revived address."
  },
  {
   "property": "C28",
   "status": "partial",
   "theorems": [
    "C28_fresh_partial",
    "C28_fresh_blocks_partial",
    "C28_same_block_refuted",
    "C28_later_block_refuted",
    "C28_incarnation_reset_refuted"
   ],
   "note": "Holds along histories of the protocol's machine; refuted when a destroyed contract is revived by a payment (same or later block) and when a plain account at the address of a past contract is emptied."
  },
  {
   "property": "C29",
   "status": "partial",
   "theorems": [
    "C29_unwind_partial",
    "C29_accounts",
    "C29_storage_partial",
    "C29_unwind_refuted"
   ],
   "note": "Accounts are restored after any history (C29_accounts). Storage: after every lawful history in which no account takes on an incarnation under which slots are left (C29_storage_partial), and not otherwise (C29_unwind_refuted)."
  },
  {
   "property": "C30",
   "status": "partial",
   "theorems": [
    "C30_heaviest_partial",
    "C30_insertion_partial",
    "C30_resubmit_refuted",
    "C30_resubmit_throws_refuted",
    "C30_node_heaviest_partial",
    "C30_node_insertion_partial"
   ],
   "note": "Proved twice: with execution a parameter (C30_heaviest, C30_insertion), and over the model of MemoryBuffer changed in place, unwound by its recorded changes and executed by the modelled processor, EVM host and state, for every order in which the hash maps are visited (C30_node_heaviest, C30_node_insertion); there the canonical world is that of the reference machine. Partial because resubmitting a canonical block throws (C30_resubmit_refuted). Pre-validation and the bytecode interpreter are parameters; executable and rooted state what is assumed of the blocks: C84_defined gives when the reference machine answers, and the two cases of C27 are excluded."
  },
  {
   "property": "C31",
   "status": "proved",
   "theorems": [
    "C31_transaction",
    "C31_valid",
    "C31_C32_block"
   ],
   "note": "Gas limits below 2^63 (int64 gas) and total supply below 2^256; the interpreter is any program respecting EvmSpec.lawful; the hash-set iteration order is arbitrary."
  },
  {
   "property": "C32",
   "status": "proved",
   "theorems": [
    "C32_rewards"
   ],
   "note": "Ommers at distance 1 to 8 (what validate_ommers accepts, C22)."
  },
  {
   "property": "C33",
   "status": "proved",
   "theorems": [
    "C33_failed_no_trace",
    "C33_supply",
    "C33_plain_transfer",
    "C33_code_transfer",
    "C33_precompiled",
    "C33_insufficient",
    "C33_created",
    "C33_gas",
    "C33_returns",
    "C33_transaction"
   ],
   "note": "The interpreter is a parameter: any program of host calls that respects EvmSpec.lawful (acts only for its own account, calls at the next depth up to 1024, returns at most its gas). Total supply may only shrink, and only by a self-destruct naming itself."
  },
  {
   "property": "C34",
   "status": "proved",
   "theorems": [
    "C34_refunds",
    "C34_boundary"
   ],
   "note": "At most 2^64/20000 writes, which no gas limit allows to exceed."
  },
  {
   "property": "C35",
   "status": "proved",
   "theorems": [
    "C35_results",
    "C35_gas",
    "C35_active",
    "C35_modexp"
   ],
   "note": "Gas exact below 2^62 and at least 2^62 otherwise; inputs below 2^48 bytes. C35_results: each contract number runs the function of its standard (C74-C78; libsecp256k1 and libff assumed correct)."
  },
  {
   "property": "C36",
   "status": "proved",
   "theorems": [
    "C36_create_rlp",
    "C36_create2_form",
    "C36_create_injective",
    "C36_create2_injective",
    "C36_disjoint",
    "C36_address"
   ],
   "note": "Injectivity and disjointness of the hashed byte strings; keccak is a parameter."
  },
  {
   "property": "C37",
   "status": "proved",
   "theorems": [
    "C37_dao"
   ],
   "note": "The 116 addresses are transcribed from dao.hpp."
  },
  {
   "property": "C38",
   "status": "proved",
   "theorems": [
    "C38_hex_prefix",
    "C38_injective",
    "C38_unpack",
    "C38_unpack_prefix"
   ],
   "note": "Paths are nibbles (values below 16)."
  },
  {
   "property": "C39",
   "status": "proved",
   "theorems": [
    "C39_root",
    "C39_unique",
    "C39_empty"
   ],
   "note": "An empty key is excluded: the builder takes it for 'no pending entry' (asserted in debug builds only). The hash function is any function to 32 bytes."
  },
  {
   "property": "C40",
   "status": "proved",
   "theorems": [
    "C40_list_root",
    "C40_exists",
    "C40_empty"
   ],
   "note": "Fewer than 2^62 values."
  },
  {
   "property": "C41",
   "status": "partial",
   "theorems": [
    "C41_roundtrip",
    "C41_exact_partial",
    "C41_length",
    "C41_count_refuted"
   ],
   "note": "The round trip is proved for every node whose number of hashes matches its mask. Unmarshalling accepts records whose count does not match (C41_count_refuted)."
  },
  {
   "property": "C42",
   "status": "proved",
   "theorems": [
    "C42_block_keys",
    "C42_storage_prefix",
    "C42_storage_change_key",
    "C42_history_keys",
    "C42_log_key",
    "C42_injective",
    "C42_block_scan",
    "C42_find_value_suffix"
   ],
   "note": "Addresses (or hashed addresses) and locations of equal width, as in the tables."
  },
  {
   "property": "C43",
   "status": "proved",
   "theorems": [
    "C43_history",
    "C43_fresh",
    "C43_unknown"
   ],
   "note": "The stages are the fourteen of kAllStages: the three mining stages have names but are rejected."
  },
  {
   "property": "C44",
   "status": "proved",
   "theorems": [
    "C44_schema_version",
    "C44_storage_mode",
    "C44_mode_strings",
    "C44_mode_parsing"
   ],
   "note": "A stored version shorter than 12 bytes is read out of bounds (only asserted); the theorem takes a database whose version can be read."
  },
  {
   "property": "C45",
   "status": "partial",
   "theorems": [
    "C45_body_record",
    "C45_transactions",
    "C45_read_block",
    "C45_absent",
    "C45_gap_refuted"
   ],
   "note": "Proved when the ids base..base+count-1 are present. With a gap other transactions are returned silently (C45_gap_refuted)."
  },
  {
   "property": "C46",
   "status": "partial",
   "theorems": [
    "C46_reads",
    "C46_write_out",
    "C46_storage_partial",
    "C46_storage_refuted"
   ],
   "note": "Reads: every history. Write-out: accounts, codes, earlier incarnations for every history; storage only for contracts with at most one slot in play (C46_storage_partial), because each slot write erases the first record of the contract (C46_storage_refuted)."
  },
  {
   "property": "C47",
   "status": "partial",
   "theorems": [
    "C47_change_sets",
    "C47_before_after",
    "C47_recorded",
    "C47_absent_refuted"
   ],
   "note": "Exact contents of the change sets for every history of blocks. An account absent before and after is recorded as well (C47_absent_refuted)."
  },
  {
   "property": "C48",
   "status": "partial",
   "theorems": [
    "C48_account_current",
    "C48_storage_partial",
    "C48_storage_missed",
    "C48_refuted"
   ],
   "note": "Account reads as of a block always give the current account (C48_account_current); slot reads are right when the index has a chunk under exactly that block (C48_storage_partial), else current (C48_storage_missed, C48_refuted)."
  },
  {
   "property": "C49",
   "status": "partial",
   "theorems": [
    "C49_partial",
    "C49_refuted",
    "C49_seek"
   ],
   "note": "Proved when the bitmap is within the limit; over the limit nothing is split and the maximum is lost (C49_refuted). seek is exact."
  },
  {
   "property": "C50",
   "status": "partial",
   "theorems": [
    "C50_load_partial",
    "C50_refuted",
    "C50_table",
    "C50_reuse_partial",
    "C50_reuse_refuted"
   ],
   "note": "Proved for entries with a non-empty key or value, lengths below 2^32 and total size below 2^64: delivery does not depend on limit or heap. An empty last entry after a spill is lost (C50_refuted). A collector can be used again only if its first round stayed in memory (C50_reuse_partial, C50_reuse_refuted)."
  },
  {
   "property": "C51",
   "status": "partial",
   "theorems": [
    "C51_partial",
    "C51_created_refuted",
    "C51_quiet_block_refuted",
    "C51_bare_contract_refuted",
    "C51_slots_refuted",
    "C51_change_sets_refuted"
   ],
   "note": "Proved for accounts that existed at block n and contracts with one slot in play, when block n left change sets. Refuted in general: created accounts stay, the walk stops only at a record of block n itself, a contract without code makes the unwinding throw, the wrong slot of a contract is removed, storage change sets are never cut."
  },
  {
   "property": "C52",
   "status": "partial",
   "theorems": [
    "C52_call",
    "C52_commits_partial",
    "C52_completes",
    "C52_chain_end_refuted",
    "C52_stage_refuted",
    "C52_repeat_refuted"
   ],
   "note": "One call of silkworm_execute_blocks and the command that drives it: proved for every batch size that each commit holds the state of the recorded progress when no block is missing (storage: one slot per contract, as C46). Refuted: at the end of the chain progress is recorded for blocks that are not written; the execution stage uses a read-only transaction and repeats the last block of a batch. Block execution is a parameter."
  },
  {
   "property": "C53",
   "status": "partial",
   "theorems": [
    "C53_first_partial",
    "C53_first_completes",
    "C53_storage_refuted",
    "C53_two_slots_refuted",
    "C53_twice_refuted",
    "C53_later_partial",
    "C53_deleted_refuted",
    "C53_later_storage_refuted",
    "C53_unwind_partial",
    "C53_unwind_refuted"
   ],
   "note": "First run: accounts and code hashes exactly as specified, for every state; completes when slots do not clash. Later runs: existing accounts and their code are brought up to date. Refuted: slots get keys nobody reads, two slots of a contract make the first run throw, a second run at block 0 throws, deleted accounts stay, changed storage is never promoted, unwinding erases instead of restoring."
  },
  {
   "property": "C54",
   "status": "partial",
   "theorems": [
    "C54_log_listener",
    "C54_log_data_refuted",
    "C54_account_history_partial",
    "C54_account_history_refuted",
    "C54_account_history_large_refuted",
    "C54_account_history_zero_refuted",
    "C54_storage_history_refuted",
    "C54_log_index_refuted",
    "C54_tx_lookup_refuted",
    "C54_blockhashes_refuted",
    "C54_tx_lookup_collects",
    "C54_tx_lookup_reached"
   ],
   "note": "Account history index proved exact (previous content plus the changing blocks from the last progress on, nothing else) when the change set has a record for the block of the last progress and bitmaps stay within a chunk. Refuted for all databases of the right shape: block hashes, transaction lookup, log index and storage history never index anything (a cursor that is not advanced, exact searches for 8-byte keys in tables with longer ones); the account index stops when the block of the last progress has no change, loses the last block of a large bitmap, and throws after a run that ended with block 0. The listener of the log index is characterised on the CBOR of logs (C54_log_listener); it also takes data of 20 or 32 bytes for an address or topic (C54_log_data_refuted). C54_tx_lookup_collects and C54_tx_lookup_reached say what the loop of the transaction lookup stage collects from the bodies it is given."
  },
  {
   "property": "C55",
   "status": "partial",
   "theorems": [
    "C55_stored_partial",
    "C55_complete_partial",
    "C55_one_batch_partial",
    "C55_lost_refuted",
    "C55_hang_refuted",
    "C55_throw_refuted",
    "C55_overload_refuted",
    "C55_empty_block_refuted",
    "C55_failure_refuted",
    "C55_range_refuted",
    "C55_large_block_refuted",
    "C55_unwind_partial",
    "C55_unwind_refuted"
   ],
   "note": "Proved for every interleaving: what recover stores when it returns, for chains without empty blocks (C55_stored_partial), and that everything is stored when all batches are complete before the last collection (C55_complete_partial). The full property fails in the code: lost results, hang, exception with more than one batch, no return when there are more transactions than max_workers * max_batch_size, senders under wrong hashes after an empty block, success on failed recovery, refused ranges, buffer overflow for large blocks, unwinding that removes nothing. Not modelled: stop requests from outside, failing thread creation, wrap of the batch id."
  },
  {
   "property": "C56",
   "status": "partial",
   "theorems": [
    "C56_stopped_means",
    "C56_destroyed_means",
    "C56_one_thread",
    "C56_kick_kept_partial",
    "C56_kick_wakes_partial",
    "C56_stop_partial",
    "C56_kick_refuted",
    "C56_stop_refuted",
    "C56_stop_starting_refuted",
    "C56_stop_unstarted_refuted",
    "C56_start_refuted",
    "C56_destroy_refuted",
    "C56_unjoined_refuted"
   ],
   "note": "Proved for every interleaving: stopped or destroyed means no thread runs, start never doubles the thread, a kick given once the thread is in work() is kept and wakes it, and stop(true) then ends within 2K+5 steps of the thread. Refuted outside work(): kicks and stops given between kStarted and the clearing of the flag, stop while starting, stop unstarted, start(true) of short work, and the destructor."
  },
  {
   "property": "C57",
   "status": "proved",
   "theorems": [
    "C57_logs",
    "C57_logs_recovered",
    "C57_receipts",
    "C57_receipts_recovered",
    "C57_stored"
   ],
   "note": "For sizes that fit an int (beyond, the model says undefined). The encoder of cbor-cpp is external: it is taken to write the shortest heads of RFC 8949."
  },
  {
   "property": "C58",
   "status": "proved",
   "theorems": [
    "C58_chain",
    "C58_any_database"
   ],
   "note": "Queries outside the last 256 ancestors are filtered by the interpreter."
  },
  {
   "property": "C59",
   "status": "proved",
   "theorems": [
    "C59_transaction_injective",
    "C59_signing_preimage",
    "C59_signing_injective",
    "C59_log_encoding",
    "C59_receipt_encoding",
    "C59_log_injective",
    "C59_receipt_injective"
   ],
   "note": ""
  },
  {
   "property": "C60",
   "status": "partial",
   "theorems": [
    "C60_parse_size_partial",
    "C60_rejects_exactly_ill_formed",
    "C60_parse_size_overflow_refuted"
   ],
   "note": "Correct below 2^64; parse_size wraps for larger products (refuted case)."
  },
  {
   "property": "C61",
   "status": "proved",
   "theorems": [
    "C61_body_exact",
    "C61_block_exact"
   ],
   "note": ""
  },
  {
   "property": "C62",
   "status": "proved",
   "theorems": [
    "C62_split",
    "C62_split_whole"
   ],
   "note": "C62_split: pieces joined by the delimiter give the text back. C62_split_whole: without a shorter, non-empty delimiter the text is returned whole."
  },
  {
   "property": "C63",
   "status": "proved",
   "theorems": [
    "C63_accepted",
    "C63_complete"
   ],
   "note": "The receipts root is a parameter here; C40 relates it to the trie."
  },
  {
   "property": "C64",
   "status": "proved",
   "theorems": [
    "C64_warm_start"
   ],
   "note": ""
  },
  {
   "property": "C65",
   "status": "partial",
   "theorems": [
    "C65_reports_partial",
    "C65_condition",
    "C65_small_refuted"
   ],
   "note": "Proved when every branch below a branch has an encoding of at least 32 bytes, which C65_condition derives for account records and for hashed storage. Otherwise the builder copies beyond a short child (C65_small_refuted)."
  },
  {
   "property": "C66",
   "status": "proved",
   "theorems": [
    "C66_binding"
   ],
   "note": "Collision-freeness is assumed only on the finitely many node encodings of the two tries."
  },
  {
   "property": "C67",
   "status": "partial",
   "theorems": [
    "C67_root_unique",
    "C67_root",
    "C67_regenerate_empty",
    "C67_regenerate_partial",
    "C67_stale_refuted",
    "C67_after_hashstate_refuted"
   ],
   "note": "Proved for a database whose hashed tables hold a state (any accounts, any slots): the loader's root is the state root, the collected nodes are exactly the intermediate nodes, regenerate_db_tries stores them and throws exactly on another expected root. Partial: nodes of an earlier state are not removed (C67_stale_refuted), and after the HashState stage the loader sees no storage (C67_after_hashstate_refuted). Hypotheses: no two hashed locations of one account share 28 bytes; ETL entries in range."
  },
  {
   "property": "C68",
   "status": "partial",
   "theorems": [
    "C68_memory",
    "C68_blocks_partial",
    "C68_buffer_partial",
    "C68_zero_slot_refuted"
   ],
   "note": "MemoryBuffer: proved for every content and every visiting order of the hash maps (C68_memory), and after any blocks against the world of the reference machine (C68_blocks_partial, histories as in C27). db::Buffer: proved when no slot is kept with value zero (C68_buffer_partial); cleared slots stay in the trie (C68_zero_slot_refuted)."
  },
  {
   "property": "C69",
   "status": "partial",
   "theorems": [
    "C69_genesis_partial",
    "C69_symmetric_nonce_partial",
    "C69_nonce_refuted",
    "C69_canonical_refuted",
    "C69_difficulty_refuted",
    "C69_duplicates",
    "C69_empty_alloc_refuted"
   ],
   "note": "Read-back of header, body, accounts and configuration after initialising an empty database, with the header's nonce as the code stores it. Refuted: nonce byte order, lookup by number, total difficulty outside 1..127, files with an empty alloc object."
  },
  {
   "property": "C70",
   "status": "proved",
   "theorems": [
    "C70_keccak256",
    "C70_keccak512",
    "C70_digest",
    "C70_constants"
   ],
   "note": "Complete for keccak256 and keccak512: the unrolled two-round loop is proved equal, for every state, to theta, rho, pi, chi and iota of FIPS 202 on single bits, and the word-wise absorption and padding to the sponge with pad10*1, for inputs of every length. The host is little-endian; the choice between the two compilations of the same function at start-up is not modelled."
  },
  {
   "property": "C71",
   "status": "partial",
   "theorems": [
    "C71_history_partial",
    "C71_accepted_iff",
    "C71_unique",
    "C71_hash_verifies",
    "C71_full_implies_light",
    "C71_header_sound",
    "C71_header_iff_partial",
    "C71_boundary_refuted",
    "C71_memory_refuted"
   ],
   "note": "For epochs below 32640 and with memory for the cache: every answer is that of Ethash, for every history of calls; accepted headers meet the rule of the Yellow Paper. Refuted: the boundary is (2^256-1)/difficulty, one too small when the difficulty is a power of two (the minimum difficulty is); without memory the null context is dereferenced. Missing: later epochs (item indices wrap at 32 bits)."
  },
  {
   "property": "C72",
   "status": "partial",
   "theorems": [
    "C72_largest_partial",
    "C72_cache_partial",
    "C72_dataset_partial",
    "C72_two_refuted",
    "C72_wrap_refuted"
   ],
   "note": "Proved for bounds from 3 on and for epochs whose bound fits 32 bits. Refuted: the largest prime up to 2 is computed as 1; the bound of the data set of epoch 65408 wraps to 0."
  },
  {
   "property": "C73",
   "status": "partial",
   "theorems": [
    "C73_answers_partial",
    "C73_epoch_partial",
    "C73_history_refuted"
   ],
   "note": "Sound for every history, complete below 30000 epochs when no two seeds collide. Refuted: whether the seed of epoch 30000 is found depends on the call before. The hash is a parameter."
  },
  {
   "property": "C74",
   "status": "partial",
   "theorems": [
    "C74_sha256_partial",
    "C74_indeterminate_refuted",
    "C74_constants",
    "C74_roots_unique",
    "C74_primes"
   ],
   "note": "SHA-256 of every input is the FIPS 180-4 digest, with constants proved to be bits of roots of primes, if the block-scoped array keeps its contents between iterations; by the letter of the C standard its contents are indeterminate there."
  },
  {
   "property": "C75",
   "status": "partial",
   "theorems": [
    "C75_ripemd_partial",
    "C75_any_length_partial",
    "C75_length_refuted"
   ],
   "note": "Proved for inputs below 2^32 bytes, and for every input what is computed; beyond 2^32 bytes the length hashed is not that of the message."
  },
  {
   "property": "C76",
   "status": "proved",
   "theorems": [
    "C76_blake2",
    "C76_failure",
    "C76_length"
   ],
   "note": "The contract equals EIP-152 with the compression function of RFC 7693 for every input."
  },
  {
   "property": "C77",
   "status": "proved",
   "theorems": [
    "C77_ecrecover",
    "C77_range"
   ],
   "note": "libsecp256k1 is assumed to implement public key recovery of SEC 1 (secp_ok); plain_secp shows the assumption can be met."
  },
  {
   "property": "C78",
   "status": "proved",
   "theorems": [
    "C78_add",
    "C78_mul",
    "C78_pairing",
    "C78_encoding"
   ],
   "note": "libff is assumed to implement the group laws, and its Miller loop and final exponentiation a pairing (libff_ok); plain_libff shows the assumptions can be met."
  },
  {
   "property": "C79",
   "status": "proved",
   "theorems": [
    "C79_sender"
   ],
   "note": "Same assumption on libsecp256k1 as C77; Keccak is the one of C70."
  },
  {
   "property": "C80",
   "status": "proved",
   "theorems": [
    "C80_reports"
   ],
   "note": "Exact: silent iff right, and the reports name exactly the wrong blocks."
  },
  {
   "property": "C81",
   "status": "partial",
   "theorems": [
    "C81_from_zero_partial",
    "C81_position_partial",
    "C81_false_alarm_refuted",
    "C81_missed_refuted"
   ],
   "note": "Proved for one body per block from 0 on, and what is compared in general; false alarms and missed errors otherwise (C81_false_alarm_refuted, C81_missed_refuted)."
  },
  {
   "property": "C82",
   "status": "partial",
   "theorems": [
    "C82_accounts_partial",
    "C82_codes_partial",
    "C82_undefined_refuted",
    "C82_storage_refuted"
   ],
   "note": "Accounts and code exact; on any database with accounts the storage check reads beyond a key (C82_undefined_refuted), otherwise storage is not looked at (C82_storage_refuted)."
  },
  {
   "property": "C83",
   "status": "partial",
   "theorems": [
    "C83_range_partial",
    "C83_status_refuted",
    "C83_height_refuted"
   ],
   "note": "Proved below height 2^32 for the report; the exit status is always 0 (C83_status_refuted) and heights are cut to 32 bits (C83_height_refuted)."
  },
  {
   "property": "C84",
   "status": "proved",
   "theorems": [
    "C84_determined",
    "C84_defined",
    "C84_written_back",
    "C84_lawful",
    "C84_program"
   ],
   "note": "Proved for every block of prevalidated transactions and every lawful interpreter, except blocks that contain the sequence refuted under C24 (C84_defined shows that nothing else is excluded); write-back excludes the two cases refuted under C27. The interpreter (evmone), the precompiled contracts, the hash function and the roots are parameters."
  },
  {
   "property": "C85",
   "status": "proved",
   "theorems": [
    "C85_account",
    "C85_slot",
    "C85_call"
   ],
   "note": "C85_account, C85_slot: the answer and the new sets for one access. C85_call: sets grow through frames that succeed and are restored by frames that fail. The start of the transaction is C64."
  },
  {
   "property": "C86",
   "status": "partial",
   "theorems": [
    "C86_account",
    "C86_code",
    "C86_storage",
    "C86_counts",
    "C86_root",
    "C86_serves_partial",
    "C86_destroyed_storage_refuted"
   ],
   "note": "Reads, counts and the root for every sequence of calls. Execution on the state is proved for states without storage; with storage it is refuted: accounts made through the interface have incarnation 0, so the storage of a contract destroyed and paid in one block comes back (finding 42)."
  },
  {
   "property": "C87",
   "status": "proved",
   "theorems": [
    "C87_revision",
    "C87_configuration",
    "C87_transaction",
    "C87_transaction_exact",
    "C87_block",
    "C87_block_exact",
    "C87_uint256"
   ],
   "note": "Configurations of known forks (revision at most 10: the setter indexes the array without a check). Exactness of transactions up to the inner length of C05."
  },
  {
   "property": "C88",
   "status": "partial",
   "theorems": [
    "C88_clear_confirmed",
    "C88_clear_only_named",
    "C88_clear_asked",
    "C88_clear_unanswered_refuted",
    "C88_compact",
    "C88_compact_loses_nothing",
    "C88_compact_replace_refuted",
    "C88_copy_one_partial",
    "C88_copy_upsert_partial",
    "C88_copy_touches",
    "C88_copy_two_refuted",
    "C88_copy_create_refuted"
   ],
   "note": "clear: proved for all tables, names and answers; refuted: the end of the input counts as a yes. compact: without --replace proved, and nothing is ever lost; refuted: with --replace the command always fails and leaves no database in place of the source. copy: one wanted table proved for all batch sizes, flags, with and without --upsert, and no commit touches other tables; refuted: a second populated table is never copied (the transaction is over), --create always fails."
  },
  {
   "property": "C89",
   "status": "partial",
   "theorems": [
    "C89_for_each_calls",
    "C89_for_each_partial",
    "C89_for_each_refuted",
    "C89_for_count_past_end_refuted",
    "C89_for_count_overruns_refuted",
    "C89_freelist_partial",
    "C89_freelist_refuted",
    "C89_scan"
   ],
   "note": "Number of calls of for_each proved; refuted: the callback gets the first record every time (so that the free list report is n times the first record). for_count refuted in both directions: past the end when the count exceeds the table, 2^64 rounds when it does not. scan proved."
  },
  {
   "property": "C90",
   "status": "partial",
   "theorems": [
    "C90_layout",
    "C90_from_chaindata_partial",
    "C90_accepts",
    "C90_round_trip",
    "C90_other_case_refuted",
    "C90_relative_refuted",
    "C90_doubled_refuted",
    "C90_validity",
    "C90_creation",
    "C90_create_tree",
    "C90_clear",
    "C90_clear_nothing",
    "C90_clear_keeps_chaindata"
   ],
   "note": "partial because the code violates it: a path whose last names differ in case is accepted and yields another chaindata directory, and a path relative to the base or with a doubled separator is refused; the rest is proved for all file systems without symbolic links"
  },
  {
   "property": "C91",
   "status": "proved",
   "theorems": [
    "C91_fresh",
    "C91_dropped",
    "C91_fails"
   ],
   "note": "proved for all file systems without symbolic links, draws and contents"
  },
  {
   "property": "C92",
   "status": "partial",
   "theorems": [
    "C92_existing",
    "C92_create",
    "C92_flags_partial",
    "C92_refused_refuted",
    "C92_coalesce_refuted"
   ],
   "note": "partial because the code violates it: a call refused for conflicting options has created the directory, and the default flag MDBX_COALESCE never reaches mdbx_env_open; everything else is proved"
  },
  {
   "property": "C93",
   "status": "proved",
   "theorems": [
    "C93_base64",
    "C93_base64_determines",
    "C93_file",
    "C93_missing_header",
    "C93_sound",
    "C93_status",
    "C93_status_unknown"
   ],
   "note": "Proved for all databases, steps and records, with the encoder of boost::beast modelled. kHeadHeader is a separate argument. An empty header record is undefined behaviour (it reads before the string) and excluded by hypothesis."
  },
  {
   "property": "C94",
   "status": "partial",
   "theorems": [
    "C94_lines_partial",
    "C94_prefix_partial",
    "C94_progress",
    "C94_ends",
    "C94_failing_stream_refuted",
    "C94_operand_refuted"
   ],
   "note": "Proved for all schedules when neither stream fails and operands do not log. Refuted without: a failing stream silences the other (C94_failing_stream_refuted); an operand that logs waits for its own thread's mutex forever (C94_operand_refuted)."
  },
  {
   "property": "C95",
   "status": "partial",
   "theorems": [
    "C95_reports",
    "C95_completes_partial",
    "C95_no_changes_refuted",
    "C95_reads",
    "C95_slots_before_partial",
    "C95_accounts_refuted"
   ],
   "note": "What is reported is exactly right whenever the command gets to its end (C95_reports). Refuted: a valid block without changes of accounts makes it end with an error before the remaining blocks (C95_no_changes_refuted). The execution of a block is a parameter. C95_reads says what a block is executed on; accounts are the current ones whatever the block (C95_accounts_refuted, from C48)."
  },
  {
   "property": "C96",
   "status": "partial",
   "theorems": [
    "C96_rows_partial",
    "C96_completes",
    "C96_tail_refuted",
    "C96_status_refuted"
   ],
   "note": "Rows and messages proved exactly (C96_rows_partial). Refuted: transactions after the last multiple of 50000 are in no row (C96_tail_refuted), and the status is 0 although blocks are not valid (C96_status_refuted). The execution of a block is a parameter."
  },
  {
   "property": "C97",
   "status": "partial",
   "theorems": [
    "C97_history_full_partial",
    "C97_hashstate_full_partial",
    "C97_hashstate_full_completes",
    "C97_hashstate_reset",
    "C97_commits",
    "C97_full_refuted",
    "C97_increment_refuted",
    "C97_status_refuted"
   ],
   "note": "Proved for account history, hashed accounts and codes, --reset, and for what is committed when a command fails. Refuted: tx_lookup, log_index and history_index --storage with --full only delete the index and end with 0 (C97_full_refuted); hashstate --full --increment loses accounts (C97_increment_refuted); kStageBadBlockHash ends with status 0 (C97_status_refuted)."
  },
  {
   "property": "C98",
   "status": "partial",
   "theorems": [
    "C98_commits_on_success",
    "C98_prefix_partial",
    "C98_complete_partial",
    "C98_many_partial",
    "C98_race_refuted",
    "C98_lost_refuted",
    "C98_empty_block_refuted",
    "C98_failure_refuted",
    "C98_force_partial",
    "C98_force_refuted",
    "C98_unwind_partial",
    "C98_unwind_refuted"
   ],
   "note": "Proved for chains without empty blocks: whatever the interleaving, a command that ends has status 0 and a prefix of the senders is committed; everything if all batches are complete at the last collection; for any number of batches such an interleaving exists. Refuted: nothing may be stored with status 0, the command may hang, a worker may use the null pointer it made of a new batch, an unrecoverable signature gives status 0 (with --force after the old senders were removed), blocks after an empty one lose their senders, unwinding to block 1 removes block 1."
  },
  {
   "property": "C99",
   "status": "partial",
   "theorems": [
    "C99_post_state_partial",
    "C99_spelled_twice_refuted",
    "C99_pre_state",
    "C99_no_blocks"
   ],
   "note": "Proved for sections that list each address and location once and no slot of zero; the section \"pre\" gives a described state unless codes collide under the hash. Refuted for an address spelled in two ways: an account that is not listed goes unseen."
  },
  {
   "property": "C100",
   "status": "partial",
   "theorems": [
    "C100_verdict_partial",
    "C100_networks",
    "C100_verdict_refuted"
   ],
   "note": "Proved for known networks and strings that decoding does not read past (see C08 for which those are). Refuted: a sender spelled with 0x, the string c3808080, an unknown network."
  },
  {
   "property": "C101",
   "status": "partial",
   "theorems": [
    "C101_status",
    "C101_success_partial",
    "C101_success_refuted",
    "C101_throws"
   ],
   "note": "The exact status is proved: the number of failures modulo 256. Refuted as a verdict: 256 failures give status 0. A file that cannot be parsed counts as skipped."
  },
  {
   "property": "C102",
   "status": "partial",
   "theorems": [
    "C102_blocks_partial",
    "C102_verdict_partial",
    "C102_skipped",
    "C102_reasons_and_roots_refuted"
   ],
   "note": "partial: the blocks and the test as a whole; the reason for which a block is refused and the state roots of accepted blocks are not looked at (refuted); the chain and the root of the buffer are parameters."
  },
  {
   "property": "C103",
   "status": "partial",
   "theorems": [
    "C103_verdict_partial",
    "C103_early_refuted"
   ],
   "note": "partial: the verdict for blocks not dated before their parent; for those that are, the difference of timestamps wraps around and the difficulty asked for is wrong (refuted). The readers of numbers (std::stoll, intx::from_string) are parameters; which file is run with which configuration is not modelled."
  }
 ]
}