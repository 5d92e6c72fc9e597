{"id": "C01", "title": "RLP round trip", "statement": "Decoding the RLP encoding of a byte string, a fixed-size byte array, a uint64, a uint256, or a list of such items yields exactly the original value and leaves exactly the bytes that followed the encoding in the input view.", "quantifier": "every value of each supported type and every trailing byte sequence", "why_tests_cant": "value space is infinite (byte strings of any length, length-of-length boundaries at 55/56, 255/256, 2^16 ...)", "anchors": ["core/silkworm/rlp/encode.cpp: encode_header, encode", "core/silkworm/rlp/encode.hpp: encode, encode_items", "core/silkworm/rlp/decode.cpp: decode_header, decode, read_uint64, read_uint256", "core/silkworm/rlp/decode.hpp: decode, decode_vector"]}
{"id": "C02", "title": "RLP decoding is canonical", "statement": "Whenever a decoder for a byte string, uint64, uint256 or fixed array returns kOk, the bytes it consumed are exactly the encoder output for the value it produced; so no value has two accepted encodings and no leading zero or over-long length is accepted.", "quantifier": "every input byte sequence", "why_tests_cant": "rejecting every non-canonical form is a statement about all inputs", "anchors": ["core/silkworm/rlp/decode.cpp: decode_header, decode, read_uint64", "core/silkworm/rlp/encode.cpp: encode, encode_header"]}
{"id": "C03", "title": "RLP length functions are exact", "statement": "rlp::length of a value (string, integer, fixed array, vector, access list, transaction, header) equals the number of bytes rlp::encode appends for it.", "quantifier": "every value of each type", "why_tests_cant": "the list header is written before the payload from the computed length, so an off-by-one on any size would corrupt the stream", "anchors": ["core/silkworm/rlp/encode.cpp: length, length_of_length", "core/silkworm/rlp/encode.hpp: length_items, length", "core/silkworm/types/transaction.cpp: length, rlp_header", "core/silkworm/types/block.cpp: length"]}
{"id": "C04", "title": "Transaction round trip", "statement": "Encoding a well-formed transaction of any of the three types (legacy, EIP-2930, EIP-1559) in block-body form (typed transactions wrapped into a byte string) and decoding it yields a transaction with the same fields and consumes exactly the encoding.", "quantifier": "every well-formed transaction and every trailing byte sequence", "why_tests_cant": "field values, access lists and payloads are unbounded", "anchors": ["core/silkworm/types/transaction.cpp: legacy_encode, eip2718_encode, encode, decode, legacy_decode, eip2718_decode"]}
{"id": "C05", "title": "Transaction decoding is canonical", "statement": "If decoding a transaction returns kOk then re-encoding the result reproduces the consumed bytes: a transaction (hence its hash) has one accepted wire form.", "quantifier": "every input byte sequence", "why_tests_cant": "absence of malleability is a claim over all byte strings", "anchors": ["core/silkworm/types/transaction.cpp: decode, legacy_decode, eip2718_decode"]}
{"id": "C06", "title": "Block header and body round trip", "statement": "Encoding then decoding a block header (with or without base fee) or a block body returns the same header/body and consumes exactly the encoding.", "quantifier": "every well-formed header or body and every trailing byte sequence", "why_tests_cant": "unbounded number of transactions and ommers, optional trailing field", "anchors": ["core/silkworm/types/block.cpp: encode, decode, rlp_header, rlp_body_length"]}
{"id": "C07", "title": "Header decoding is canonical", "statement": "If decoding a block header returns kOk, re-encoding the header gives the consumed bytes, so header hash is determined by the accepted bytes.", "quantifier": "every input byte sequence", "why_tests_cant": "claim over all byte strings", "anchors": ["core/silkworm/types/block.cpp: decode"]}
{"id": "C08", "title": "Decoders never read outside the supplied view", "statement": "No decoder in the RLP, transaction, header, body or account-storage codec reads a byte beyond the end of the supplied byte view; malformed or truncated input gives an error result.", "quantifier": "every input byte sequence, including every truncation of a valid encoding", "why_tests_cant": "out-of-bounds reads depend on the precise truncation point and are silent at run time", "anchors": ["core/silkworm/rlp/decode.cpp: decode_header", "core/silkworm/types/transaction.cpp: legacy_decode, eip2718_decode, decode", "core/silkworm/types/account.cpp: decode_account_from_storage"]}
{"id": "C09", "title": "Account storage codec", "statement": "decode_account_from_storage inverts encode_for_storage (up to the omitted code hash), encoding_length_for_storage equals the encoded size, and extract_incarnation agrees with the full decode.", "quantifier": "every account (nonce, balance, incarnation, code hash; code hash present or omitted)", "why_tests_cant": "2^64 * 2^256 * 2^64 values, each stored in a variable number of bytes", "anchors": ["core/silkworm/types/account.cpp: encode_for_storage, encoding_length_for_storage, decode_account_from_storage, extract_incarnation"]}
{"id": "C10", "title": "Account trie encoding is injective", "statement": "Two accounts/storage roots with the same RLP trie encoding are equal in nonce, balance, storage root and code hash, so the state root commits to each account field.", "quantifier": "every pair of accounts and storage roots", "why_tests_cant": "injectivity ranges over all pairs", "anchors": ["core/silkworm/types/account.cpp: rlp"]}
{"id": "C11", "title": "Log bloom has no false negatives and accumulates exactly", "statement": "The bloom of a list of logs has every bit belonging to the address and topics of every log, contains no bit that does not stem from one of them, and joining blooms equals the bloom of the concatenated logs.", "quantifier": "every list of logs, every hash function value", "why_tests_cant": "lists unbounded; claim is about absence of false negatives", "anchors": ["core/silkworm/types/bloom.cpp: m3_2048, logs_bloom", "core/silkworm/types/bloom.hpp: join"]}
{"id": "C12", "title": "Hex codec", "statement": "from_hex inverts to_hex, accepts an optional 0x/0X prefix and digits of either case, and rejects every string of odd length or with a non-hex character.", "quantifier": "every byte string and every character string", "why_tests_cant": "all strings of all lengths", "anchors": ["core/silkworm/common/util.cpp: to_hex, from_hex, decode_hex_digit"]}
{"id": "C13", "title": "Padding, prefix and zeroless view", "statement": "Left/right padding produce exactly the requested size keeping the content, also when the view lies inside the buffer; to_address/to_bytes32 left-pad shorter inputs with zeros and keep the leading bytes of longer ones; zeroless_view preserves the big-endian value and is minimal; prefix_length is the length of the longest common prefix.", "quantifier": "every byte string and size", "why_tests_cant": "all lengths and values", "anchors": ["core/silkworm/common/util.cpp: left_pad, right_pad, to_address, to_bytes32, zeroless_view, prefix_length"]}
{"id": "C14", "title": "LRU cache behaves as a bounded recency map", "statement": "After any sequence of put/get/clear, a get returns the last value put for a key if that key is among the capacity most recently used keys since the last clear, and nothing otherwise; so the cache holds each key once, at most its capacity, and evicts precisely the least recently used key. No sequence reaches undefined behaviour.", "quantifier": "every operation sequence and every capacity", "why_tests_cant": "histories are unbounded; eviction depends on the whole history", "anchors": ["core/silkworm/common/lru_cache.hpp: put, get, size, clear"]}
{"id": "C15", "title": "Analysis cache never serves analysis from another EVM revision", "statement": "A get for revision r returns only a value put under revision r since the last put under another revision.", "quantifier": "every sequence of get/put with arbitrary revisions", "why_tests_cant": "history property", "anchors": ["core/silkworm/execution/analysis_cache.cpp: get, put"]}
{"id": "C16", "title": "Intrinsic gas", "statement": "intrinsic_gas equals the protocol formula for the transaction data, creation flag, access list and revision, never wraps, and is monotone when data or access list grow.", "quantifier": "every transaction and revision", "why_tests_cant": "data and access list sizes unbounded", "anchors": ["core/silkworm/chain/intrinsic_gas.cpp: intrinsic_gas"]}
{"id": "C17", "title": "Block difficulty", "statement": "canonical_difficulty equals the Frontier/Homestead/Byzantium/Muir-Glacier formulas over the integers, never falls below the minimum and never wraps for in-range inputs.", "quantifier": "every block number, timestamps and parent difficulty, every fork schedule", "why_tests_cant": "signed/unsigned arithmetic edge cases over 2^256 values", "anchors": ["core/silkworm/chain/difficulty.cpp: canonical_difficulty"]}
{"id": "C18", "title": "EIP-1559 base fee", "statement": "expected_base_fee_per_gas equals the EIP-1559 integer formula and does not wrap: unchanged at the target, falls by at most one eighth, rises by at least 1 wei and at most max(1 wei, one eighth of the fee scaled by (target+1)/target), which is one eighth for even gas limits.", "quantifier": "every parent header and config", "why_tests_cant": "ranges over all gas values and fees", "anchors": ["core/silkworm/chain/validity.cpp: expected_base_fee_per_gas"]}
{"id": "C19", "title": "Fork schedule", "statement": "ChainConfig::revision(n) is the latest revision whose activation block is at most n, is monotone in n, and set_revision_block/revision_block round-trip without affecting other revisions; to_json/from_json round-trip.", "quantifier": "every config and block number", "why_tests_cant": "all block numbers and schedules", "anchors": ["core/silkworm/chain/config.cpp: revision, revision_block, set_revision_block, to_json, from_json"]}
{"id": "C20", "title": "Transaction pre-validation", "statement": "pre_validate_transaction returns kOk exactly when chain id, type-for-revision, fee caps, signature range and intrinsic gas rules all hold, and otherwise returns the first violated rule in the documented order.", "quantifier": "every transaction, revision, chain id and base fee", "why_tests_cant": "product of unbounded fields", "anchors": ["core/silkworm/chain/validity.cpp: pre_validate_transaction"]}
{"id": "C21", "title": "Header validation", "statement": "validate_block_header returns kOk exactly when gas, extra-data, timestamp, gas-limit drift, difficulty, DAO-range, base-fee and seal rules hold with respect to the stored parent.", "quantifier": "every header, parent and fork schedule", "why_tests_cant": "product of unbounded fields; boundary values at 1/1024 and fork blocks", "anchors": ["core/silkworm/chain/validity.cpp: validate_block_header"]}
{"id": "C22", "title": "Ommer rules", "statement": "pre_validate_block returns the verdict of the first violated block rule; in particular it accepts ommers only if there are at most two, they are distinct, each has a valid header, shares its parent with one of the six most recent ancestors of the block, is not itself an ancestor, and was not included by one of those ancestors.", "quantifier": "every block and chain history", "why_tests_cant": "recursion through ancestors; history unbounded", "anchors": ["core/silkworm/chain/validity.cpp: pre_validate_block, is_kin"]}
{"id": "C23", "title": "Signature range and recovery id", "statement": "is_valid_signature accepts exactly 0<r<n, 0<s<n (s<=n/2 from Homestead); v and (parity, chain id) round-trip, and a v that is neither 27/28 nor at least 35 never yields the chain id of a real chain.", "quantifier": "every r, s, v in 256 bits", "why_tests_cant": "2^768 inputs", "anchors": ["core/silkworm/crypto/ecdsa.cpp: is_valid_signature, v_to_y_parity_and_chain_id, y_parity_and_chain_id_to_v"]}
{"id": "C24", "title": "Snapshot/revert restores the world state", "statement": "Taking a snapshot, performing any sequence of state operations (including nested snapshots and reverts) and reverting makes every subsequent query answer as at the snapshot (except that address 3 stays touched, as the protocol demands). Storage is written only in accounts that exist, as the EVM does.", "quantifier": "every reachable state and every operation sequence", "why_tests_cant": "unbounded histories; bugs hide in rare combinations of create/destruct/storage deltas", "anchors": ["core/silkworm/state/intra_block_state.cpp: take_snapshot, revert_to_snapshot, all mutators", "core/silkworm/state/delta.cpp: revert"]}
{"id": "C25", "title": "World state refines a plain map", "statement": "Balances, nonces, code, storage, existence, logs, refund counter and access sets observed through IntraBlockState after any sequence of operations are those of a simple account map initialised from the database.", "quantifier": "every database content and operation sequence", "why_tests_cant": "unbounded histories", "anchors": ["core/silkworm/state/intra_block_state.cpp"]}
{"id": "C26", "title": "Transaction boundary", "statement": "Between two transactions the refund, logs, access sets, journal and self-destruct set are cleared; self-destructed accounts and, from Spurious Dragon on, touched empty accounts vanish, everything else survives; original storage equals the value at the start of the transaction; all this in whatever order the sets are visited.", "quantifier": "every state and operation sequence", "why_tests_cant": "histories", "anchors": ["core/silkworm/state/intra_block_state.cpp: clear_journal_and_substate, finalize_transaction, destruct_suicides, destruct_touched_dead, get_original_storage"]}
{"id": "C27", "title": "Block write-back", "statement": "After write_to_db, reading accounts and storage through a fresh IntraBlockState over the same database gives the values the executing IntraBlockState had, for all accounts, and untouched accounts are unchanged.", "quantifier": "every database and operation sequence", "why_tests_cant": "histories", "anchors": ["core/silkworm/state/intra_block_state.cpp: write_to_db", "core/silkworm/state/memory_buffer.cpp"]}
{"id": "C28", "title": "Contract re-creation never exposes old storage", "statement": "A contract created (or re-created after self-destruct) starts with all storage slots zero, whatever was stored for earlier incarnations of the address.", "quantifier": "every history of creation, self-destruct, transfer and block write-back", "why_tests_cant": "needs multi-transaction multi-block histories", "anchors": ["core/silkworm/state/intra_block_state.cpp: create_contract, get_storage", "core/silkworm/state/memory_buffer.cpp: update_account, previous_incarnation", "db/silkworm/db/buffer.cpp: update_account, previous_incarnation"]}
{"id": "C29", "title": "Unwinding a block restores the previous state", "statement": "unwind_state_changes(n) after the changes of block n have been recorded returns accounts, storage and hence state root to the values before the block.", "quantifier": "every state and every set of changes in a block", "why_tests_cant": "histories", "anchors": ["core/silkworm/state/memory_buffer.cpp: begin_block, update_account, update_storage, unwind_state_changes"]}
{"id": "C30", "title": "Canonical chain is the heaviest valid chain", "statement": "After any sequence of block insertions the canonical chain is a linked chain of inserted blocks from genesis ending in a block whose total difficulty is at least that of every successfully inserted block, the state equals the result of executing it, and a failed insertion leaves the canonical chain unchanged.", "quantifier": "every sequence of insert_block calls with arbitrary valid/invalid forks", "why_tests_cant": "reorg histories unbounded", "anchors": ["core/silkworm/chain/blockchain.cpp: insert_block, re_execute_canonical_chain, unwind_last_changes, canonical_ancestor"]}
{"id": "C31", "title": "Gas accounting of a transaction", "statement": "gas used is between intrinsic gas minus refund and gas limit, refund is at most the allowed fraction of gas spent, the block never exceeds its gas limit, cumulative gas in receipts is the running sum, and the fee the sender pays equals burnt base fee plus the tip the beneficiary receives.", "quantifier": "every transaction, EVM outcome and state", "why_tests_cant": "EVM outcomes are arbitrary", "anchors": ["core/silkworm/execution/processor.cpp: validate_transaction, execute_transaction, refund_gas, available_gas"]}
{"id": "C32", "title": "Block rewards", "statement": "Block and ommer rewards equal the protocol formula for each revision and are the only ether created by a block.", "quantifier": "every block with any ommers", "why_tests_cant": "all ommer distances and revisions", "anchors": ["core/silkworm/execution/processor.cpp: apply_rewards"]}
{"id": "C33", "title": "Ether conservation in calls and creates", "statement": "A message call or create moves exactly the value from sender to recipient when it succeeds and nothing when it fails, never overdraws, creates no ether, and leaves no trace after failure (except the incremented nonce and warm address of a failed creation); it returns no more gas than it was given, and nesting is bounded by the depth limit of 1024 the interpreter enforces.", "quantifier": "every message, call depth, EVM outcome and state", "why_tests_cant": "EVM behaviour is arbitrary and nested without bound", "anchors": ["core/silkworm/execution/evm.cpp: create, call, EvmHost::call, EvmHost::selfdestruct"]}
{"id": "C34", "title": "SSTORE refunds", "statement": "For every revision and every sequence of writes to any slots, inside any nesting of kept and reverted call frames, the accumulated refund, the reported storage statuses and the values follow EIP-1283/2200/2929/3529, and the refund counter never underflows or wraps.", "quantifier": "every original state, revision, and tree of writes and frames", "why_tests_cant": "sequences unbounded", "anchors": ["core/silkworm/execution/evm.cpp: EvmHost::set_storage"]}
{"id": "C35", "title": "Precompile gas", "statement": "Gas of each precompiled contract equals the protocol formula for every input and revision, without wrap-around, and set of active precompiles per revision is right.", "quantifier": "every input byte string and revision", "why_tests_cant": "inputs unbounded, modexp exponent lengths up to 2^256", "anchors": ["core/silkworm/execution/precompiled.cpp", "core/silkworm/execution/evm.cpp: number_of_precompiles, is_precompiled"]}
{"id": "C36", "title": "Contract address derivation", "statement": "create_address and create2_address hash an injective encoding of (caller, nonce) / (caller, salt, code hash), and the two preimages never coincide.", "quantifier": "every caller, nonce, salt and code hash", "why_tests_cant": "injectivity over all pairs", "anchors": ["core/silkworm/execution/address.cpp: create_address, create2_address"]}
{"id": "C37", "title": "DAO fork moves, does not create, ether", "statement": "transfer_balances moves the balances of the listed accounts to the withdraw contract, preserves the total and touches no other account.", "quantifier": "every state", "why_tests_cant": "all balances", "anchors": ["core/silkworm/chain/dao.cpp: transfer_balances"]}
{"id": "C38", "title": "Merkle-Patricia path encoding", "statement": "Hex-prefix path encoding is injective over (nibble path, leaf flag) and unpack_nibbles is injective.", "quantifier": "every nibble path", "why_tests_cant": "all lengths", "anchors": ["core/silkworm/trie/hash_builder.cpp: encode_path, unpack_nibbles"]}
{"id": "C39", "title": "Trie root equals the Merkle-Patricia definition", "statement": "For every strictly increasing prefix-free sequence of keys, HashBuilder::root_hash equals the Yellow Paper trie hash of that key/value set, regardless of how it is built.", "quantifier": "every sorted key set and values, every hash function", "why_tests_cant": "streaming construction with unbounded keys", "anchors": ["core/silkworm/trie/hash_builder.cpp: add, finalize, root_hash, gen_struct_step, branch_ref, node_ref"]}
{"id": "C40", "title": "Ordered-list root", "statement": "trie::root_hash of a list feeds each index once, keys in increasing lexicographic order, so the transactions/receipts root is the Merkle-Patricia root of index -> item.", "quantifier": "every list length", "why_tests_cant": "all lengths; rlp(0)=0x80 re-ordering edge cases", "anchors": ["core/silkworm/trie/vector_root.hpp: adjust_index_for_rlp, root_hash"]}
{"id": "C41", "title": "Trie node database codec", "statement": "unmarshal_node inverts marshal_node for every node, and rejects inputs of impossible length.", "quantifier": "every node with any masks and hashes", "why_tests_cant": "2^48 mask combinations", "anchors": ["db/silkworm/trie/db_trie.cpp: marshal_node, unmarshal_node"]}
{"id": "C42", "title": "Database keys are injective and order preserving", "statement": "block_key, storage_prefix, change-set, history and log keys are injective and byte-wise order equals numeric (address, incarnation, location, block) order.", "quantifier": "all pairs of keys", "why_tests_cant": "order over all pairs of 64-bit numbers and byte strings", "anchors": ["db/silkworm/db/util.cpp: block_key, storage_prefix, storage_change_key, account_history_key, storage_history_key, log_key"]}
{"id": "C43", "title": "Stage progress", "statement": "Reading the progress of a stage returns the last value set for it (0 if none), setting one stage affects no other, unwind points are independent of progress, unknown stages are rejected.", "quantifier": "every sequence of set/get", "why_tests_cant": "histories and all stage names", "anchors": ["db/silkworm/db/stages.cpp"]}
{"id": "C44", "title": "Schema version and storage mode persistence", "statement": "Schema version and storage mode read back as written; downgrading the schema is refused; mode string parsing inverts printing.", "quantifier": "all versions/modes and sequences", "why_tests_cant": "all 2^96 versions and histories", "anchors": ["db/silkworm/db/access_layer.cpp: set_schema_version, get_schema_version, set_storage_mode, get_storage_mode, parse_storage_mode", "db/silkworm/db/util.hpp"]}
{"id": "C45", "title": "Stored block bodies", "statement": "decode_stored_block_body inverts encode of the storage body; reading transactions of a body returns precisely those with ids base..base+count-1.", "quantifier": "every body, every table contents", "why_tests_cant": "unbounded counts and tables", "anchors": ["db/silkworm/db/util.cpp: BlockBodyForStorage::encode, decode_stored_block_body", "db/silkworm/db/access_layer.cpp: read_transactions"]}
{"id": "C46", "title": "Write buffer is transparent", "statement": "Reading accounts/code/storage through db::Buffer returns the last buffered write, else the database value; write_to_db makes the database return the same values without buffer.", "quantifier": "every sequence of updates and reads", "why_tests_cant": "histories; duplicate-sorted tables", "anchors": ["db/silkworm/db/buffer.cpp: update_account, update_storage, read_account, read_storage, write_to_state_table, upsert_storage_value"]}
{"id": "C47", "title": "Change sets record pre-images once per block", "statement": "For each block, the change-set tables contain for each account/slot changed in the block its value before the block and for nothing else; after write-out they can be read back.", "quantifier": "every sequence of updates over many blocks", "why_tests_cant": "histories", "anchors": ["db/silkworm/db/buffer.cpp: begin_block, update_account, update_storage, write_to_db", "db/silkworm/db/access_layer.cpp: read_account_changes, read_storage_changes"]}
{"id": "C48", "title": "Historical reads", "statement": "Reading an account or slot as of block n returns the value it had right before n was executed, for all n.", "quantifier": "every history and block number", "why_tests_cant": "histories unbounded", "anchors": ["db/silkworm/db/access_layer.cpp: historical_account, historical_storage, read_account, read_storage"]}
{"id": "C49", "title": "Bitmap chunking loses nothing", "statement": "Repeatedly cutting chunks from a history bitmap yields chunks within the size limit, in order, whose union is the original bitmap.", "quantifier": "every bitmap and limit", "why_tests_cant": "all sets of integers", "anchors": ["db/silkworm/db/bitmap.cpp: cut_left, seek"]}
{"id": "C50", "title": "ETL load is independent of buffering", "statement": "Whatever the buffer size and flush points, Collector::load delivers each collected entry exactly once in (key, value) order, transformed by the load function; nothing is lost or duplicated.", "quantifier": "every sequence of collected entries, every buffer limit", "why_tests_cant": "schedules of flushes and merges over unbounded inputs", "anchors": ["db/silkworm/etl/collector.cpp: collect, flush_buffer, load", "db/silkworm/etl/buffer.cpp", "db/silkworm/etl/file_provider.cpp", "db/silkworm/etl/util.cpp"]}
{"id": "C51", "title": "Execution unwind", "statement": "Unwinding the execution stage to block n restores the accounts and storage as of the end of block n.", "quantifier": "every history of blocks and n", "why_tests_cant": "histories", "anchors": ["db/silkworm/stagedsync/stage_execution.cpp: unwind_execution, unwind_table_from, walk_collect"]}
{"id": "C52", "title": "Execution stage progress", "statement": "The execution stage executes each block once in order, and records progress only for executed and written blocks; restart after a crash resumes at the next block.", "quantifier": "every crash point and batch size", "why_tests_cant": "crash points", "anchors": ["db/silkworm/stagedsync/stage_execution.cpp: execute, stage_execution", "tg_api/silkworm_tg_api.cpp: silkworm_execute_blocks", "cmd/execute.cpp: main"]}
{"id": "C53", "title": "Hashed state follows plain state", "statement": "After HashState promotion, hashed tables hold for every account/slot exactly the plain value under hashed keys.", "quantifier": "every plain state", "why_tests_cant": "all states", "anchors": ["db/silkworm/stagedsync/stage_hashstate.cpp: hashstate_promote_clean_state, hashstate_promote"]}
{"id": "C54", "title": "Indexing stages", "statement": "The BlockHashes, TxLookup, LogIndex, AccountHistory and StorageHistory stages map every header hash, transaction hash, log address or topic, changed account or changed slot in range to the right blocks, and nothing else, in one run or in several.", "quantifier": "every chain content", "why_tests_cant": "unbounded tables", "anchors": ["db/silkworm/stagedsync/stage_blockhashes.cpp", "db/silkworm/stagedsync/stage_tx_lookup.cpp", "db/silkworm/stagedsync/stage_log_index.cpp", "db/silkworm/stagedsync/listener_log_index.hpp", "db/silkworm/stagedsync/stage_history_index.cpp"]}
{"id": "C55", "title": "Sender recovery is schedule independent", "statement": "For every interleaving of the farm's thread with its workers, a recovery of the senders of a chain of well signed blocks returns, reports success, and leaves in the table of senders, under each block's number and hash, the addresses recovered from the block's transactions in order, with the stage's progress at the last block; a signature nothing can be recovered from is reported; unwinding to a block removes the senders of the later blocks only.", "quantifier": "every interleaving of the farm and worker threads, chain, batch size, number of workers and range", "why_tests_cant": "thread schedules", "anchors": ["db/silkworm/stagedsync/recovery/recovery_farm.cpp (RecoveryFarm::recover, dispatch_batch, bufferize_workers_results, fill_canonical_headers, unwind)", "db/silkworm/stagedsync/recovery/recovery_worker.cpp (RecoveryWorker::work, set_work)", "core/silkworm/types/transaction.cpp (Transaction::recover_sender)"]}
{"id": "C56", "title": "Worker start/stop/kick", "statement": "A worker reported as stopped, or destroyed, has no thread running, and start never creates a thread beside a running one. A kick issued before or while the worker waits is never lost: the wait returns. stop(true) makes the worker leave its loop and returns; start(true) returns; the destructor of a worker in any state returns.", "quantifier": "every interleaving of the owning thread's calls with the worker's thread, every length of the work between two waits", "why_tests_cant": "thread schedules", "anchors": ["db/silkworm/common/worker.hpp: Worker", "db/silkworm/common/worker.cpp: start, stop, kick, wait_for_kick, ~Worker"]}
{"id": "C57", "title": "Stored logs and receipts can be read back", "statement": "The CBOR stored for the logs of a transaction is well-formed and any reader of CBOR gets exactly the logs (addresses, topics, data) from it; the CBOR stored for the receipts of a block gives exactly the type, status and cumulative gas of each receipt, in order. After the receipts of a block are inserted into the buffer and the buffer is written, these are what the database holds under the keys of the block and of its transactions, and a transaction without logs stores none.", "quantifier": "every list of logs and receipts whose sizes fit an int, every previous content of buffer and database", "why_tests_cant": "Unbounded lists, lengths and numbers; uniqueness quantifies over all byte strings and readings", "anchors": ["db/silkworm/types/log_cbor.cpp: cbor_encode", "db/silkworm/types/receipt_cbor.cpp: cbor_encode", "db/silkworm/db/buffer.cpp: Buffer::insert_receipts, write_to_db"]}
{"id": "C58", "title": "BLOCKHASH", "statement": "For the 256 most recent ancestors (the interpreter itself answers zero for other numbers), get_block_hash(n) returns the hash of the ancestor at height n, whatever queries were answered before in the block; from a header missing in the database on it returns zero.", "quantifier": "every chain, database and sequence of queries", "why_tests_cant": "histories", "anchors": ["core/silkworm/execution/evm.cpp: EvmHost::get_block_hash"]}
{"id": "C59", "title": "Consensus encodings commit to all fields", "statement": "Transaction (signing and full), log and receipt encodings are injective, so hashes commit to every field.", "quantifier": "all pairs of values", "why_tests_cant": "injectivity over all pairs", "anchors": ["core/silkworm/types/transaction.cpp: encode", "core/silkworm/types/log.cpp: encode", "core/silkworm/types/receipt.cpp: encode"]}
{"id": "C60", "title": "Size parsing", "statement": "parse_size returns number times unit (with up to three decimals, rounded down) for every well-formed string, and nothing for every other non-empty string.", "quantifier": "every string", "why_tests_cant": "all strings", "anchors": ["core/silkworm/common/util.cpp: parse_size"]}
{"id": "C61", "title": "Accepted bodies and blocks are exactly framed", "statement": "A byte string accepted as a block body or block is the encoding of what was decoded, followed by the bytes reported as unread: no element, padding or length other than that of the decoded transactions and headers is tolerated (up to the inner list length of typed transactions, see C05).", "quantifier": "every byte string accepted by the body or block decoder", "why_tests_cant": "ranges over all byte strings", "anchors": ["core/silkworm/types/block.cpp: decode(BlockBody), decode(Block)"]}
{"id": "C62", "title": "Splitting a string", "statement": "split cuts a string at every occurrence of the delimiter, left to right: the pieces contain no delimiter and joining them with the delimiter gives the string back (up to one trailing delimiter).", "quantifier": "every string and every non-empty delimiter shorter than it", "why_tests_cant": "all strings", "anchors": ["core/silkworm/common/util.cpp: split"]}
{"id": "C63", "title": "State is written exactly for blocks that match their header", "statement": "execute_block reports success and writes the resulting state exactly when every transaction was valid in turn and gas used, receipts root (from Byzantium) and logs bloom equal those of the header; on any other outcome nothing is written.", "quantifier": "every block, prior state and EVM behaviour", "why_tests_cant": "outcomes of arbitrary transaction sequences", "anchors": ["core/silkworm/execution/execution.cpp: execute_block", "core/silkworm/execution/processor.cpp: execute_block"]}
{"id": "C64", "title": "Warm addresses and slots at the start of a transaction", "statement": "When the code of a transaction starts running, the accessed addresses are exactly the sender, the recipient and those of the access list, and the accessed slots exactly those of the access list, whatever earlier transactions accessed.", "quantifier": "every transaction and prior state", "why_tests_cant": "arbitrary access lists and histories", "anchors": ["core/silkworm/execution/processor.cpp: execute_transaction", "core/silkworm/state/intra_block_state.cpp: access_account, access_storage, clear_journal_and_substate"]}
{"id": "C65", "title": "Intermediate trie nodes for the database", "statement": "With a node collector set, the builder reports exactly the branch nodes whose subtree contains another branch, children before parents, each with the masks of its used slots, of the slots leading to reported nodes and of the slots holding branches, and the hashes of the latter; the root report carries the root hash.", "quantifier": "every sorted prefix-free key set, every hash function", "why_tests_cant": "unbounded tries and masks", "anchors": ["core/silkworm/trie/hash_builder.cpp: gen_struct_step, node_collector"]}
{"id": "C66", "title": "The root commits to the content", "statement": "If two key/value sets give the same root hash and the hash function has no collision among the nodes of the two tries, the sets are equal.", "quantifier": "every two sorted prefix-free key sets", "why_tests_cant": "injectivity over all pairs of sets", "anchors": ["core/silkworm/trie/hash_builder.cpp: root_hash, node_ref, encode_path"]}
{"id": "C67", "title": "The state root and the intermediate trie nodes are those of the hashed state", "statement": "If the hashed tables of a database hold a state (accounts under the hash of the address, slots under the hash of the address, the incarnation and the hash of the location), then regenerating the tries returns the state root of that state as the Yellow Paper defines it, throws if and only if a different root was expected, and leaves in the two trie tables exactly the intermediate nodes of that state's account and storage tries, changing no other table.", "quantifier": "every state (any set of accounts, contracts and slots), every database holding it, every expected root, every hash function with 32-byte results", "why_tests_cant": "The root depends on the whole content of two tables through nested trie constructions; a test fixes one state, and the interesting cases (nodes of an earlier state in the tables, storage written by the stage before) are histories.", "anchors": ["db/silkworm/trie/db_trie.cpp: DbTrieLoader::calculate_root, regenerate_db_tries", "db/silkworm/trie/hash_builder.cpp: HashBuilder"]}
{"id": "C68", "title": "The state root of a buffer is the state root of its content", "statement": "The state root hash returned by the in-memory buffer is the Yellow Paper's state root of the accounts and slots it holds, in whatever order its hash maps are visited; after any sequence of executed and written-back blocks it is the state root of the world these blocks produce. The same holds for the database buffer and the accounts and slots in it.", "quantifier": "every content of the buffer, every iteration order of its hash maps, every history of blocks, every hash function without collisions among the keys in use", "why_tests_cant": "Iteration order of hash maps differs between runs and platforms; the root depends on the whole content and history.", "anchors": ["core/silkworm/state/memory_buffer.cpp: MemoryBuffer::account_storage_root, MemoryBuffer::state_root_hash", "db/silkworm/db/buffer.cpp: Buffer::account_storage_root, Buffer::state_root_hash"]}
{"id": "C69", "title": "Initialising from a genesis file gives the genesis block and its state", "statement": "Initialising an empty database from a valid genesis file stores the genesis block that file describes: the header read back under number 0 and the returned hash is the genesis header (its state root that of the allocated balances, its nonce as in the file, the hash being that of its RLP), the body is empty, the block and the chain configuration are found by block number 0, the total difficulty is the difficulty of the file, and every account reads as allocated and no other account exists. A file allocating an address twice is refused.", "quantifier": "every genesis file with fields in range, every set of allocations, every iteration order of the account map, every hash function without collisions among the addresses in use", "why_tests_cant": "The tool has no unit tests; a test could compare one network's block hash, not every file, nonce, difficulty and allocation", "anchors": ["cmd/initialize_with_genesis.cpp: main", "db/silkworm/db/buffer.cpp: Buffer::update_account, write_to_db, state_root_hash", "db/silkworm/db/access_layer.cpp: read_header, read_body, read_block, read_total_difficulty, read_chain_config, read_account"]}
{"id": "C70", "title": "The hash functions are Keccak-256 and Keccak-512", "statement": "For every byte string, of any length, keccak256 and keccak512 return the Keccak digest as FIPS 202 defines the permutation and the sponge (with the original Keccak padding), without reading or writing outside of their arrays; and the constants for the hash of nothing, of the empty list and of the empty trie are these digests.", "quantifier": "every input of every length, including every length modulo the block size and the word size", "why_tests_cant": "Test vectors cover a handful of inputs; a slip in one of the rotations, in the absorption of the last words or in the padding at one residue of the length would change hashes of other inputs only", "anchors": ["ethash/ethash/keccak.cpp: keccakf1600_implementation, keccak, keccak256, keccak512", "core/silkworm/common/base.hpp: kEmptyHash, kEmptyListHash, kEmptyRoot"]}
{"id": "C71", "title": "The proof of work is Ethash", "statement": "For every history of verifications of blocks of epochs below 32640, memory permitting, each answer is what Ethash defines for that block alone: accepted if and only if the mix hash is the one hashimoto yields for the header hash and nonce with the cache and data set of the block's epoch, and the result does not exceed the boundary; the answer does not depend on which epoch's context an earlier call left behind. What the hashing function returns is accepted, and full verification implies light verification. A header that validation accepts satisfies the Yellow Paper's rule (result <= 2^256 / difficulty) and every other header rule, and for difficulties that do not divide 2^256 the converse holds.", "quantifier": "all lists of verification calls (block number, header hash, mix hash, nonce, boundary); all headers, chain configurations and stored chains", "why_tests_cant": "The result is a hash over a table of millions of items derived from the epoch; test vectors settle a handful of (header, nonce) pairs, while acceptance must agree with the specification for every one of them, after every history of calls.", "anchors": ["ethash/ethash/ethash.cpp: hash, verify_full, verify_light, create_epoch_context, build_light_cache, calculate_dataset_item_1024", "ethash/ethash/ethash.hpp: get_boundary_from_diff", "core/silkworm/chain/validity.cpp: validate_block_header"]}
{"id": "C72", "title": "Sizes of the Ethash cache and data set", "statement": "For every epoch the number of items of the light cache and of the full data set is the largest prime not above the bound the Ethash specification gives for that epoch, and the largest-prime function returns the largest prime not above its argument.", "quantifier": "all epochs (32-bit), all upper bounds", "why_tests_cant": "There is one size per epoch and primality is a statement about all divisors; a table of known sizes covers only the epochs in the table.", "anchors": ["ethash/ethash/ethash.cpp: find_largest_unsigned_prime, is_unsigned_odd_prime, calculate_light_cache_num_items, calculate_full_dataset_num_items"]}
{"id": "C73", "title": "The epoch of a seed is found", "statement": "Asking for the epoch of a seed answers with an epoch whose seed it is, or says that there is none, and the answer does not depend on the questions asked before.", "quantifier": "all sequences of seeds asked in one process", "why_tests_cant": "The function keeps the last answer in static variables, so its behaviour is a property of call histories; tests run it on a few fixed sequences.", "anchors": ["ethash/ethash/ethash.cpp: calculate_epoch_from_seed"]}
{"id": "C74", "title": "SHA-256 contract", "statement": "For every input the SHA-256 precompiled contract returns the digest FIPS 180-4 defines.", "quantifier": "all byte strings of any length", "why_tests_cant": "Padding has boundary cases at every length modulo 64 and the digest depends on every bit; a few vectors do not cover them.", "anchors": ["core/silkworm/crypto/sha-256.c: calc_sha_256, calc_chunk", "core/silkworm/execution/precompiled.cpp: sha256_run"]}
{"id": "C75", "title": "RIPEMD-160 contract", "statement": "For every input the RIPEMD-160 precompiled contract returns twelve zero bytes followed by the RIPEMD-160 digest of the input.", "quantifier": "all byte strings of any length", "why_tests_cant": "The step tables, the padding at every length modulo 64 and lengths that do not fit one word cannot be enumerated.", "anchors": ["core/silkworm/crypto/rmd160.c", "core/silkworm/crypto/rmd160.cpp", "core/silkworm/execution/precompiled.cpp: rip160_run"]}
{"id": "C76", "title": "BLAKE2 compression contract", "statement": "For every input the BLAKE2 F precompiled contract fails exactly when the input is not 213 bytes or its last byte is neither 0 nor 1, and otherwise returns the state after the given number of rounds of the RFC 7693 compression function.", "quantifier": "all byte strings, all numbers of rounds below 2^32", "why_tests_cant": "The number of rounds is an input of 32 bits; tests run a handful of counts.", "anchors": ["core/silkworm/crypto/blake2b-ref.c: blake2b_compress", "core/silkworm/execution/precompiled.cpp: blake2_f_run"]}
{"id": "C77", "title": "ecrecover", "statement": "For every input the ecrecover contract returns the address (padded to 32 bytes) of the public key that the message hash and the signature in the input determine, and nothing if v is not 27 or 28, r or s is out of range, or no key exists; it never fails.", "quantifier": "every input of any length", "why_tests_cant": "2^1024 inputs; the range check of the code accepts signatures with one of r, s out of range and relies on the library to reject them", "anchors": ["core/silkworm/execution/precompiled.cpp: ecrec_run", "core/silkworm/crypto/ecdsa.cpp: recover, is_valid_signature, v_to_y_parity_and_chain_id"]}
{"id": "C78", "title": "alt_bn128 contracts", "statement": "Addition, scalar multiplication and pairing check return what EIP-196 and EIP-197 prescribe for every input, zero-extended or cut as prescribed, and fail exactly when a coordinate is not below the field modulus, a point is not on its curve, a G2 point has the wrong order or the length is no multiple of 192.", "quantifier": "every input, any number of pairs", "why_tests_cant": "unbounded inputs; the order of imaginary and real parts, padding and the zero point are easy to get wrong", "anchors": ["core/silkworm/execution/precompiled.cpp: bn_add_run, bn_mul_run, snarkv_run", "core/silkworm/crypto/snark.cpp"]}
{"id": "C79", "title": "Sender of a transaction", "statement": "The sender recovered for a transaction is the address of the key that signed exactly the payload its type prescribes (legacy with and without replay protection, EIP-2930, EIP-1559), and there is none if the signature is out of range or determines no key.", "quantifier": "every transaction", "why_tests_cant": "all field values and types", "anchors": ["core/silkworm/types/transaction.cpp: recover_sender", "core/silkworm/crypto/ecdsa.cpp: recover"]}
{"id": "C80", "title": "check_blockhashes finds every wrong hash", "statement": "The command that checks block hashes reports nothing iff the hash of every canonical block leads back to its number, and otherwise reports exactly the canonical blocks whose hash is unknown or leads to another number.", "quantifier": "every database", "why_tests_cant": "all contents of two tables of any size", "anchors": ["cmd/check_blockhashes.cpp: main"]}
{"id": "C81", "title": "check_tx_lookup finds every wrong index entry", "statement": "The command that checks the transaction lookup reports nothing iff the hash of every transaction of every stored body leads to the number of its block.", "quantifier": "every database, with any number of competing bodies and gaps", "why_tests_cant": "all contents of three tables of any size", "anchors": ["cmd/check_tx_lookup.cpp: main"]}
{"id": "C82", "title": "check_hashstate compares the whole state", "statement": "The command that checks the hashed state reports nothing iff every account, storage slot and contract code of the plain state is found, unchanged, under its hashed key, and it has no undefined behaviour.", "quantifier": "every database", "why_tests_cant": "all contents of six tables of any size", "anchors": ["cmd/check_hashstate.cpp: check"]}
{"id": "C83", "title": "check_pow checks every header of the range", "statement": "The command that checks proof of work goes through all canonical headers of the range up to the progress of the senders stage, reports the first that is not sealed, and ends with a status that tells success from failure.", "quantifier": "every database, range and height", "why_tests_cant": "all headers and ranges; heights beyond 2^32", "anchors": ["cmd/check_pow.cpp: main"]}
{"id": "C84", "title": "The outcome of a block depends only on the world it starts from", "statement": "Executing a block gives the same receipts and the same verdict over any two stores that hold the same accounts, codes and storage, whatever incarnation numbers, leftover storage of destroyed contracts and iteration orders of hash sets they have; a valid block executed over the in-memory state and written back leaves it holding exactly the world the execution reached, so that the next block can be executed over it.", "quantifier": "every store, world, block, revision, interpreter that writes storage only in contracts, iteration order and write-back order; except the sequences refuted under C24 and C27 in which an incarnation is forgotten", "why_tests_cant": "a test fixes one store, one layout of hash sets and one history of incarnations; the receipts must agree for all of them or clients fork", "anchors": ["core/silkworm/execution/execution.cpp: execute_block", "core/silkworm/execution/processor.cpp: ExecutionProcessor::execute_and_write_block", "core/silkworm/execution/evm.cpp: EVM::execute", "core/silkworm/state/intra_block_state.cpp: IntraBlockState", "core/silkworm/state/memory_buffer.cpp: MemoryBuffer"]}
{"id": "C85", "title": "Warm and cold accesses while code runs", "statement": "Code that accesses an account or a storage slot is told that the access is cold exactly when the account is not a precompiled contract of the block's revision and neither the start of the transaction nor an earlier access that was not undone made it warm; asking makes it warm and changes nothing else. A call or creation that succeeds makes nothing cold; one that fails leaves warm exactly what was warm before it, except for the address of a contract whose creation was paid for.", "quantifier": "every revision, state, address and slot, every lawful program and every nesting of calls and creations", "why_tests_cant": "The answer depends on everything that ran before in the transaction, including frames that were undone", "anchors": ["core/silkworm/execution/evm.cpp: EvmHost::access_account, EvmHost::access_storage, EVM::is_precompiled, EVM::create", "core/silkworm/state/intra_block_state.cpp: access_account, access_storage, revert_to_snapshot"]}
{"id": "C86", "title": "A state set up through the C interface", "statement": "After any sequence of calls of the C interface that set accounts, codes and storage words, reading an account, a code or a word gives the last thing set for it, a word as its shortest big-endian form; the number of accounts and the number of words of a contract are the numbers of those that were last set to something; the root hash is the state root of exactly that content; and blocks executed on the state see the world it describes, so that a contract set up this way that is destroyed has lost its storage.", "quantifier": "every sequence of calls with 20-byte addresses, every location and value of any length, every order of visiting the hash maps, every block", "why_tests_cant": "Sequences of calls are unbounded, and a clash between two set-up calls or between set-up and execution appears only in particular combinations", "anchors": ["wasm/silkworm_wasm_api.cpp: state_update_account, state_update_code, state_update_storage, state_read_account_new, state_read_code_new, state_read_storage_new, state_number_of_accounts, state_storage_size, state_root_hash_new, new_account", "core/silkworm/state/memory_buffer.cpp"]}
{"id": "C87", "title": "Objects and chain configurations made through the C interface", "statement": "A chain configuration made through the C interface has the given chain id, and the rules in force at a block are those of the latest fork whose last setting is not after the block; Muir Glacier and DAO blocks are the last ones set. A transaction or block object is made only from a text that is, to its last byte, one encoding (in a typed transaction the length inside may be understated), and then it is the object encoded; every encoding of a well-formed object is accepted. A 256-bit number is made of its four limbs, least significant first.", "quantifier": "every sequence of settings of known forks, every block number, every byte string, every four limbs", "why_tests_cant": "Settings may come in any order and repeat, and acceptance must be exact for every byte string", "anchors": ["wasm/silkworm_wasm_api.cpp: new_config, config_set_fork_block, config_set_muir_glacier_block, config_set_dao_block, new_transaction, new_block, new_uint256_le"]}
{"id": "C88", "title": "The database tool clears, compacts and copies exactly what it was asked to", "statement": "dbtool clear empties or drops the tables named on the command line, after a yes for each (or -Y), and leaves all other tables as they are. compact writes a complete copy of the database, and with --replace puts it in the place of the source; whenever it stops, the whole content is in one of the files. copy leaves each wanted table in the target with exactly the source's records (with --upsert: merged, source values winning), whatever the size of a batch, each commit on the way holding a prefix; no unwanted table and no populated table (without --upsert) is touched in any commit.", "quantifier": "all databases and tables with and without duplicates, all answers and ends of input, all options, batch sizes and failing points", "why_tests_cant": "The commands have no tests; the outcome depends on the number and size of the tables, on batch boundaries, on the moment of a failure and on how input ends.", "anchors": ["cmd/dbtool.cpp: do_clear, do_compact, do_copy, main", "libmdbx/mdbx.c++: txn_managed::commit", "libmdbx/mdbx.c: mdbx_cursor_put"]}
{"id": "C89", "title": "Walks over a table visit each record once, up to the number asked for", "statement": "for_each hands the records of a table to the callback one after the other until it says stop, and returns how many it went on from; for_count does the same for at most the given number of records. The free list report of dbtool is the sum over all records of the free table; scan reports the total length of keys and values.", "quantifier": "all tables, all callbacks, all counts", "why_tests_cant": "The number of calls and the records seen depend on the relation of the count to the length of the table; a walk that never ends cannot be seen in a test.", "anchors": ["db/silkworm/db/mdbx.cpp: for_each, for_count", "cmd/dbtool.cpp: get_freeInfo, do_freelist, do_scan"]}
{"id": "C90", "title": "A data directory is what its path says, and clearing it touches only temporary files", "statement": "A DataDirectory always has the same layout below its base. DataDirectory::from_chaindata accepts the path of an existing chaindata directory and yields the data directory it belongs to, so that its chaindata path is the one given; valid() says whether the base is a directory; construction without create changes nothing. create_tree makes the three directories, or throws because a file stands in the way, and never removes or changes what is there. clear_etl_temp removes everything inside the etl-temp directory and nothing else, in particular no chain data.", "quantifier": "all file systems, working directories and paths", "why_tests_cant": "the tests use one temporary directory with the names spelled exactly; the claim is about every tree of files and every spelling of a path", "anchors": ["db/silkworm/common/data_dir.cpp: DataDirectory, from_chaindata, create_tree, clear_etl_temp", "core/silkworm/common/util.cpp: split, iequals"]}
{"id": "C91", "title": "A temporary directory is fresh and leaves no trace", "statement": "create_temporary_directory returns a path at which nothing was before, makes exactly that directory, and fails without a trace only if the place for temporary files is missing, a file has a drawn name, or every drawn name is taken. Whatever is done inside the directory, destroying the TemporaryDirectory restores the file system of before its construction.", "quantifier": "all file systems, random draws, numbers of tries and changes made inside the directory", "why_tests_cant": "names are random: a test sees one draw and never a collision", "anchors": ["db/silkworm/common/temp_dir.cpp: create_temporary_directory, TemporaryDirectory"]}
{"id": "C92", "title": "Opening an environment obeys its configuration", "statement": "Without create, open_env changes nothing on disk and opens an environment exactly if a data file that is not empty is there and the options do not contradict each other. With create it opens one exactly if no data file is there, no file stands in the way and the options do not contradict each other, and never overwrites anything. The library is asked for read-only, exclusive and shared access and for full durability as configured. A refused call leaves no trace.", "quantifier": "all file systems, paths and configurations", "why_tests_cant": "32 combinations of options times every state of the disk; tests open fresh temporary directories with a few", "anchors": ["db/silkworm/db/mdbx.cpp: open_env", "db/silkworm/db/mdbx.hpp: EnvConfig", "libmdbx/mdbx.c++: env::operate_parameters::make_flags"]}
{"id": "C93", "title": "The file of hard coded headers has the headers of the chain", "statement": "extract_headers --step s writes an array of the unpadded base64 texts of the headers at heights 0, s, 2s, ... of the canonical chain up to the first such height without a canonical block, in order, none missing and none twice; each text decodes to the header's record and to nothing else. If a canonical block has no header the command ends with status 1 after the headers before it. The final status says whether the database is at the head it records.", "quantifier": "all databases, steps and numbers of headers, all byte strings as records", "why_tests_cant": "the command has no test; the text depends on the length of every record modulo three and on where the chain ends", "anchors": ["cmd/extract_headers.cpp: base64encode, read_canonical_hash, read_head_header_hash, read_rlp_encoded_header, HeaderListFile, main"]}
{"id": "C94", "title": "Log lines of many threads come out whole, in order, on both streams", "statement": "Any number of threads may log at once. Whatever the schedule, both streams get the lines of exactly the messages of sufficient level, each line in one piece, those of one thread in its order; at any moment they have whole lines and the begin of one more. No schedule blocks and every schedule ends. A stream that fails does not take the messages away from the other, and an operand of a message may itself log.", "quantifier": "all numbers of threads, messages and characters, all levels, all schedules, all failing points of the streams", "why_tests_cant": "interleavings of characters of threads are not chosen by a test, and a deadlock is only seen when it happens", "anchors": ["db/silkworm/common/log.hpp: SILKWORM_LOG, log_", "db/silkworm/common/log.cpp: log_::header_", "db/silkworm/common/tee.hpp: teebuf, teestream"]}
{"id": "C95", "title": "check_changes reports exactly the blocks whose recorded changes are wrong", "statement": "check_changes --from a --to b executes each block of the range on the state before it and compares the changes of accounts and storage with those recorded in the database. It reports exactly the blocks that are not valid, and of the others exactly the accounts that differ (missing, with another value, not recorded; three known addresses are exempt when recorded without a change) and the blocks whose storage changes differ; it goes on to the end of the range or the first block that is not there.", "quantifier": "all databases, ranges of blocks, chain configurations and behaviours of execution", "why_tests_cant": "the command has no tests; a check that misses one block or one account looks like success", "anchors": ["cmd/check_changes.cpp: main, print_storage_changes", "db/silkworm/db/access_layer.cpp: read_account_changes, read_storage_changes", "db/silkworm/db/buffer.cpp: account_changes, storage_changes"]}
{"id": "C96", "title": "scan_txs counts every transaction of a range and those that failed", "statement": "scan_txs --from a --to b executes the blocks of the range and prints the numbers of transactions and of failed ones, each transaction counted in exactly one row, with a message for each block that is not valid and a status that shows whether there was one.", "quantifier": "all databases, ranges of blocks, chain configurations and behaviours of execution", "why_tests_cant": "the command has no tests; rows come every 50000 blocks, which no test executes", "anchors": ["cmd/scan_txs.cpp: main"]}
{"id": "C97", "title": "A stage command with --full makes its index anew, whatever was there", "statement": "The commands hashstate, history_index, log_index and tx_lookup with --full replace their tables by exactly what the chain data in the database demands, whatever wrong or old content and progress they had, and touch nothing else. hashstate --reset empties the hashed state and its progress. If a command fails, the database has the old content or an empty index with progress 0, from which a later run begins anew; a status of 0 says that the stage succeeded.", "quantifier": "all databases, all previous contents and progress of the index, all combinations of options, all failing points", "why_tests_cant": "the commands have no tests; the previous content of the tables is arbitrary", "anchors": ["cmd/hashstate.cpp: main", "cmd/history_index.cpp: main", "cmd/log_index.cpp: main", "cmd/tx_lookup.cpp: main", "cmd/blockhashes.cpp: main", "db/silkworm/stagedsync/util.cpp: check_stagedsync_error"]}
{"id": "C98", "title": "check_senders stores the senders of the whole range or nothing", "statement": "The command check_senders recover, for every interleaving of its thread with its workers and any number of batches, either fails and commits nothing or commits the senders of every waiting block under the block's number and hash, with the progress at the last of them and nothing else touched; with --force it replaces those from the given block on and keeps the earlier ones; with --dry it commits nothing. A signature nothing can be recovered from makes it fail. check_senders unwind n keeps exactly the senders of the blocks up to n and sets the progress to n.", "quantifier": "all chains of well signed blocks, batch sizes, numbers of workers, interleavings, heights and flags, all tables of senders", "why_tests_cant": "the outcome depends on when the worker threads set their status, announce a batch and let go of it; a test runs one interleaving on one chain", "anchors": ["cmd/check_senders.cpp: RecoveryFarm::recover, unwind, dispatch_batch, bufferize_workers_results, worker_completed_handler, RecoveryWorker::work, main"]}
{"id": "C99", "title": "The state before and after a blockchain test is the one the test file describes", "statement": "The consensus test runner sets up the state that the section \"pre\" of a test describes, and accepts the state after the blocks exactly when it has every account of the section \"postState\" with that balance, nonce, code and storage, and no other account and no other slot.", "quantifier": "every state, every section of accounts, every spelling of its numbers", "why_tests_cant": "the runner is itself the test: a comparison that misses an account, a slot or a field would let every wrong state pass unseen", "anchors": ["cmd/consensus.cpp: init_pre_state, post_check", "core/silkworm/state/memory_buffer.cpp: number_of_accounts, storage_size"]}
{"id": "C100", "title": "A transaction test passes exactly when every network treats the transaction as the file says", "statement": "A transaction test passes if and only if, for every network named in it, the string is one whole transaction that the network allows in its first block and whose recovered sender is the one given, or, where no sender is given, there is no such transaction. The named networks have the fork rules of their names.", "quantifier": "every string, every list of networks and expected senders, every block number", "why_tests_cant": "the ways to be refused (hex, RLP, left-over bytes, validation, recovery) combine with the networks and expectations without bound", "anchors": ["cmd/consensus.cpp: transaction_test, kNetworkConfig"]}
{"id": "C101", "title": "The status of the consensus test runner tells whether a test failed", "statement": "The process ends with status 0 exactly when no test failed; a test that throws ends it abnormally.", "quantifier": "every number of files and of tests in them, every way in which they end", "why_tests_cant": "the status is derived from a count that has no bound, and the system keeps 8 bits of it", "anchors": ["cmd/consensus.cpp: RunResults, run_test_file, main"]}
{"id": "C102", "title": "A blockchain test passes exactly when the chain does with its blocks what the file says", "statement": "A test passes exactly when, starting from the state the file begins with, every block without an expected exception is accepted, every block with one is refused for that reason, in the order of the file, the blocks accepted have the right state roots, and the state at the end is the one the file gives, by its root or in full.", "quantifier": "every test file with well-formed sections, every list of blocks, every chain that accepts and refuses blocks", "why_tests_cant": "the runner is itself the test: nothing tests it, and it must not pass a wrong chain for any file", "anchors": ["cmd/consensus.cpp: run_block, blockchain_test"]}
{"id": "C103", "title": "A difficulty test passes exactly when the difficulty it gives is that of the protocol", "statement": "A difficulty test passes when the difficulty in the file is the one the protocol gives the block from its number, its timestamp and the difficulty, timestamp and uncles of its parent, and fails for any other difficulty.", "quantifier": "every test whose texts are read as numbers, every configuration, with and without uncles of the parent", "why_tests_cant": "the runner is itself the test; the files hold only some blocks", "anchors": ["cmd/consensus.cpp: difficulty_test", "core/silkworm/chain/difficulty.cpp: canonical_difficulty"]}
