# Formal model of silkworm: design

Coq 8.16.1. Sources under `rocq/theories/`, logical name `Verif`.

## Conventions

* A byte is an `N`; `bytes := list N`; `wf_bytes` says every element is below 256. C++ unsigned
  integers are `N` with explicit `mod 2^k` wherever the C++ expression can wrap.
* Undefined behaviour (out-of-range read, failed assert relied upon) is a distinct outcome (`UB`), as is
  a C++ exception (`Throw`). Fuel exhaustion, where fuel is used, is a distinct outcome too.
* External functions (secp256k1, the EVM interpreter, libff, CRoaring
  containers, CBOR library, MDBX pages) are function parameters or abstract sets/lists; their use is recorded below. Keccak and the
  Ethash seal check are parameters of the models that use them and are modelled separately (C70, C71).
* File kinds: `*_Model.v` (definitions citing /repo), `*_Spec.v` (small independent specification),
  `*_Proofs.v` (lemmas), `Props_*.v` (property theorems closed by `exact`, each with `Print Assumptions`
  and examples showing that the hypotheses can be met).
* Full property false of the code: theorem `…_refuted` with a concrete witness and a `…_partial` theorem
  for the part that holds.

## Plan per property

| Property | Modelled | Proof method |
|---|---|---|
| C01-C03 | rlp/encode, rlp/decode byte-exact | algebraic round trip, case analysis on header form, induction on lists |
| C04, C05, C08 | Transaction encode/decode for the three types with UB outcome | composition of field codecs; refutations by witness |
| C06, C07 | BlockHeader/BlockBody/Block codecs | composition |
| C09, C10 | account storage codec, account RLP | field-by-field round trip; injectivity from C01 |
| C11 | bloom bits over abstract hash | bitwise extensionality, induction on logs |
| C12, C13, C60 | util.cpp string helpers | induction on strings |
| C14, C15 | lru_cache as list + index map; analysis cache | invariant + refinement to an abstract recency list |
| C16-C18 | gas/difficulty/base fee with explicit wrap | equality with integer formula over Z plus bounds |
| C19 | ChainConfig with optional activation blocks | induction on fork list |
| C20-C22 | validity.cpp rule sequences | decision procedure = conjunction of spec rules; induction on depth for is_kin |
| C23 | ecdsa.cpp arithmetic | case analysis; refutations |
| C24-C28 | IntraBlockState with journal over gmap | invariant: undoing the journal restores; refinement to plain map |
| C29, C30 | MemoryBuffer, Blockchain | induction over changes, inserts |
| C31-C34, C37 | processor, EVM wrapper and host with abstract interpreter | conservation invariants; refund algebra |
| C35 | gas functions of precompiles | equality with formula over unbounded integers |
| C36, C59 | address preimages; encodings | injectivity from C01/C02 |
| C38-C41 | trie: path codec, HashBuilder, vector_root, node codec | refinement of streaming builder to recursive MPT definition |
| C65, C66 | node collector; commitment | invariant of the open levels of the builder; induction on tries with RLP injectivity |
| C42-C48 | MDBX tables as ordered (multi-)maps, keys, access layer, Buffer | refinement to maps; refutations where the code deviates |
| C49 | bitmap as sorted list | refutation + partial |
| C50 | ETL collector | merge-sort correctness for every flush schedule |
| C51-C54 | stages over table model | refutations + partials |
| C55 | transition system for the farm's threads | invariants over all interleavings |
| C56 | transition system of the owner and the thread; a step per access to state_, kicked_ and thread_ | invariants, and a measure on the thread's steps; schedules for the refutations |
| C57 | CBOR writer | spec decoder inverts |
| C58 | get_block_hash | induction on ancestor chain |
| C60-C62 | parse_size, exact frames of bodies and blocks, split | explicit wrap; composition; induction |
| C63, C64 | execute_block of execution.cpp; substate before the EVM runs | composition of C31, C32 with the header checks; set equality |
| C67 | trie loader over the hashed tables | invariant of the loops over two sorted tables; C39, C65 for the builder; C50 for the collectors |
| C68 | state roots of the two buffers | sorted maps from hash maps in any order; C39; C27 for histories |
| C69 | genesis initialisation and read-back | buffer content by induction over the allocations; C68, C46, C06; the little-endian difficulty by the canonical form of RLP numbers |
| C69 | genesis initialisation | table model; readers of C42-C45 applied to what is written |
| C70 | Keccak-256, Keccak-512 | lanes of the bit array held in words; each unrolled round by symbolic execution; invariant of the absorbing loop; padding by bytes |
| C71 | proof of work is Ethash | the specification on lists of words, as in the Ethash paper; cache, data set items and mixing each by an invariant of its loop; the static context by induction over histories of calls; linked to header validation (C21) with Keccak (C70) |
| C72 | sizes are largest primes | trial division by odd numbers is primality; descending search; ranges where 32 bits suffice |
| C73 | epoch of a seed | invariant of the static variables over histories of calls |
| C74 | SHA-256 | chunk state machine refines padding; rolling schedule array refines the 64-word schedule; constants as roots of primes |
| C75 | RIPEMD-160 | rotated macro arguments refine the step function; xor packing refines little-endian blocks; induction on blocks |
| C76 | BLAKE2 F | array of sixteen words refines the vector of the RFC; induction on rounds |
| C77-C79 | ecrecover, alt_bn128 contracts, sender recovery over abstract libraries | refinement to curve arithmetic written out in the specification, under stated assumptions on libsecp256k1 and libff |
| C80-C83 | the checking commands (check_blockhashes, check_tx_lookup, check_hashstate, check_pow) | each loop as a function from the tables to the list of reports; invariants of cursor positions; proof of work by C71 |
| C84 | The EVM and the processor rewritten as programs over the interface of IntraBlockState, shown equal to the models of C31-C35 and run on the reference machine of C24 | simulation of programs (answers drive the next call), independence of the iteration order, Hoare triples on the reference machine for committed storage and for the place of code |
| C85 | the host's two access calls inside a program, the journal of accesses, frames that succeed and fail | one step of a program that accesses, by cases; frames by the journal invariant: undoing a frame's journal only removes accesses, and gives back the sets before the frame |
| C86 | the state functions of the C interface over the memory buffer | the content after a sequence of calls by induction on the sequence, from the last call; counts by listing the keys; the root by C68; blocks by C25 for states without storage, and a computed counterexample with storage |
| C87 | the constructors and setters of the C interface | settings by induction from the last one and C19; objects by C04, C06 and C61 |
| C88 | Model the commands of dbtool over named tables with flags: clear with the regular expression and end of input, compact as steps over three files, copy with batches, the put flags and the life of the transaction | Induction over records with the invariant that each commit holds a prefix; failures of the full claims shown by theorems named _refuted |
| C89 | Model for_each and for_count as loops with the record read once; freelist and scan on top | Induction over the table; count and overrun for all lengths below 2^64 |
| C90 | paths as strings resolved in a file system of directories and files; the data directory functions over it | tokens of a path against its pieces; induction over the pieces for create_directories; removal by place |
| C91 | random draws as a function of the try; the loop over names | induction over the tries; what is inside a place that was free |
| C92 | the checks of open_env over the file system, the flags libmdbx makes of its parameters | cases over options; the same facts about paths |
| C93 | boost's base64 and padding arithmetic, the loop over heights on the database tables | induction over triples of bytes; induction over the heights |
| C94 | threads as programs of messages, one step per character, the mutex, two streams with room | invariant over all interleavings; a measure for the end |
| C95 | the loop over blocks on the database tables, the comparison of change sets with those of db::Buffer; execution a parameter | set reasoning for the comparison; induction over the range |
| C96 | the loop over blocks with its counters modulo 2^64; execution a parameter | induction over the range with the blocks since the last row |
| C97 | the mains of the stage commands as lists of committed databases, on the stages of HashStateModel and IndexModel | what a cleared database looks like, composed with the theorems of C53 and C54 |
| C98 | cmd/check_senders.cpp on the workers and reading of FarmModel, as a transition system over all interleavings; the command as a relation | an invariant of the interleavings that allows batches to outnumber workers; constructed interleavings for what goes wrong and for any number of batches; unwinding as a filter of the ordered table |
| C99 | ConsensusModel: init_pre_state, post_check over the memory buffer | a list of different keys is as long as the map is large iff it has all of them; induction over the entries; a refutation for an address spelled twice |
| C100 | ConsensusModel: transaction_test, kNetworkConfig | case analysis per network, induction over the list; the fork table for every block number; refutations |
| C101 | ConsensusModel: run_tests, run_files, exit_status | the count of failures modulo 2^64, 2^32 and 256; refutation with 256 failures |
| C102 | run_block and blockchain_test; the chain and the root of the buffer parameters | induction over the blocks against a relation that says how a test should go; the reason of a refusal and the roots of accepted blocks refuted |
| C103 | difficulty_test; the readers of numbers parameters | the arithmetic of C17's difficulty against the protocol's formula over the integers; blocks dated before their parent refuted |

## Trusted base

* The Coq 8.16.1 kernel (and its `vm_compute` for concrete cases; coqchk re-checks without it).
* `Print Assumptions` follows every property theorem in `Props_*.v` and prints "Closed under the global context" for each:
  no axioms are used. The libraries loaded contain axioms that no theorem here depends on: coqchk lists the seven constants
  `Coq.ssr.ssrunder.Under_rel.{Over_rel, Under_rel_from_rel, over_rel, over_rel_done, Under_rel, Under_relE, under_rel_done}`
  (opaque module fields of ssreflect, loaded through std++).
* That the definitions in `*Model.v` are what the cited C++ lines do. Each definition cites file and lines; simplifications
  are named there and summarised below.

## What is modelled, and how

| Module | Code | Simplifications |
|---|---|---|
| RlpModel, TxModel, BlockModel, TypesModel | rlp/*, types/* | on a decoding error the view position is not modelled |
| EcdsaModel | crypto/ecdsa.cpp | secp256k1 recovery is a parameter |
| UtilModel | common/util.cpp, endian | views as byte lists, except where a scratch buffer is reused (C13) |
| LruModel | common/lru_cache.hpp, analysis cache | std::list + unordered_map as list + map; locks omitted |
| ChainModel | chain/*, consensus rules | keccak, ethash seal, transaction root are parameters |
| StateModel | state/intra_block_state.cpp, state/delta.cpp | maps as gmap, addresses and slots as N |
| MemBufModel | state/memory_buffer.cpp | RLP of headers/bodies not part of it |
| BlockchainModel | consensus/blockchain.cpp | execution, pre-validation and roots are parameters |
| EvmModel | execution/evm.cpp, execution/address.cpp | the interpreter (evmone) is a parameter that yields a tree of host calls; what it must respect is `EvmSpec.lawful`; static mode is the interpreter's; state analysis cache omitted |
| ProcessorModel | execution/processor.cpp, execution/execution.cpp, chain/dao.{hpp,cpp} | `iterate` is the order of the hash sets; `root` stands for the receipts trie; analysis cache, state pool and external VM handles omitted; asserts are preconditions |
| BlockHashModel | evm.cpp get_block_hash | the range check (256 ancestors) is the interpreter's |
| PrecompileModel | execution/precompiled.cpp gas functions, expmod, identity | the other contracts are in Sha256Model, RipemdModel, Blake2Model and CurveModel |
| TrieModel, TrieNode | trie/hash_builder.{hpp,cpp}, trie/vector_root.hpp, db trie/db_trie.cpp marshal_node/unmarshal_node | keccak is a parameter; a memcpy beyond its source is the outcome `None`; debug-only asserts are preconditions |
| DbTable, DbModel | db/util.{hpp,cpp}, db/stages.{hpp,cpp}, db/access_layer.cpp (versions, modes, headers, bodies, blocks) | an MDBX table is the ordered list of its records, a cursor position its rest; the cursor operations are those of the bundled mdbx.h++ |
| BufferModel | db/buffer.{hpp,cpp}, db/access_layer.cpp (state reads, change sets, reads as of a block), db/bitmap.cpp | batch size accounting, receipts, blocks and state root of db::Buffer left out; roaring bitmaps are finite sets with size and serialisation as parameters |
| EtlModel | etl/buffer.cpp, etl/file_provider.cpp, etl/collector.cpp, etl/util.{hpp,cpp} | files are byte strings; the heap is any function giving the place of a least element; disk errors and logging left out |
| UnwindModel | stagedsync/stage_execution.cpp (unwind_execution and its helpers), stagedsync/util.cpp (convert_to_db_format) | the transaction is a pure function of the database; logging left out |
| ExecModel | tg_api/silkworm_tg_api.cpp, cmd/execute.cpp (main loop), stagedsync/stage_execution.cpp (execute, stage_execution) | executing one block, the batch size measure and CBOR are parameters; the four exception status codes are one |
| HashStateModel | stagedsync/stage_hashstate.cpp (all of it) | keccak is a parameter with 32-byte results; MDBX_APPEND as in libmdbx; commit is the returned database; logging left out |
| IndexModel | stagedsync/stage_blockhashes.cpp, stage_tx_lookup.cpp, stage_history_index.cpp, stage_log_index.cpp, listener_log_index.hpp | bitmaps are sets with their serialisation and size as parameters; the CBOR decoder and the order of unordered_map are parameters; logging left out |
| StateRoot | `db/silkworm/trie/db_trie.cpp:29-188, 253-272` | The stub cursors over the intermediate tries are folded into one pass, as they are in the code. Collectors are the ETL model. |
| MemRoot | `core/silkworm/state/memory_buffer.cpp:227-278`; `db/silkworm/db/buffer.cpp:106-137, 284-303` | Hash maps are visited in any order (lists); std::map is a sorted table. |
| Genesis | cmd/initialize_with_genesis.cpp 154-262; access_layer.cpp read_chain_config | JSON parsing and the formats of its strings left out: the file arrives as a record; the kHeadHeader table left out; keccak and the iteration order of the account map are parameters; kBlockReceipts value as a literal |
| Cbor | `db/silkworm/types/log_cbor.cpp:24-41`; `receipt_cbor.cpp:24-46`; `db/silkworm/db/buffer.cpp:261-282` | cbor-cpp's encoder is modelled by RFC 8949 (its source is not in the repository); sizes from 2^31 on are Undefined. The specification is a relation for reading CBOR with heads of any width. |
| Worker | db/silkworm/common/worker.{hpp,cpp} | one step per access to state_, kicked_ and thread_; the condition variable is not represented, since its wait has a timeout: a waiting thread may wake at any time. One thread calls the methods. Accesses are sequentially consistent. |
| Farm | FarmModel, FarmSpec, FarmProofs, FarmProofs2, FarmLemmas, FarmFinal, FarmRuns, FarmCases, FarmWitness, Props_Farm | recovery_farm.cpp and recovery_worker.cpp: reading of headers and bodies as functions, farm and workers as a transition system over all interleavings; keccak and secp256k1 recovery are parameters (32 bytes, keys that start with 4) |
| KeccakModel, KeccakSpec, KeccakProofs 1-4, KeccakCases | ethash/ethash/keccak.cpp (all) | words as N, arrays as lists with accesses outside of them as a separate outcome; specification on single bits after FIPS 202 |
| EthashModel, EthashSpec, EthashProofs 1-3, EthashLemmas, EthashCases | ethash/ethash/ethash.cpp, ethash.hpp, hash_types.hpp (all); validity.cpp:177-196 | unions as byte strings read little-endian; memory exhaustion an argument; the static context and static seed are threaded through histories of calls; concurrent calls are not modelled |
| Sha256Model, RipemdModel, Blake2Model | crypto/sha-256.c, crypto/rmd160.c and rmd160.cpp, crypto/blake2b-ref.c, sha256_run, rip160_run, blake2_f_run of execution/precompiled.cpp | little-endian machine; a read beyond an array or of an indeterminate word is the outcome `None`; the null pointer of an empty view is not modelled |
| State, exact | ExactSpec, ExactProofs, ExactLemmas, ExactFinal | a second reference machine for IntraBlockState, with incarnations and no excluded histories; gives C24, C26 in full and C25_exact |
| Curve | CurveSpec, CurveModel, CurveLibs, CurveProofs, CurveLemmas, Props_Curve | crypto/snark.cpp, ecdsa.cpp recover, the contracts ecrecover, bn_add, bn_mul, snarkv, the table kContracts; libsecp256k1 and libff are records of functions with the assumptions secp_ok and libff_ok (CurveLibs) |
| Tool | cmd/check_blockhashes.cpp, check_tx_lookup.cpp, check_hashstate.cpp, check_pow.cpp | the loops over the tables and what they report; log lines as lists of reports; reading beyond a key is undefined behaviour; command line, logging and signals not modelled |
| State, blocks | ExactBlocksSpec, ExactBlocksProofs, ExactBlocksCases | write-back and unwinding of blocks against the machine with incarnations (C27_exact, C27_blocks_exact, C29_accounts, C29_storage_partial) |
| Run | ScriptSpec, ScriptEvm, ScriptProofs, ScriptSim, RunSpec, RunProofs, RunWritable, RunCodes, RunDefined, RunCases, Props_Run | No code of its own: ScriptEvm restates EvmModel and ProcessorModel as programs over the calls of IntraBlockState (C84_program shows that they agree); RunSpec runs them on the reference machine of StateSpec. |
| Node | ChainBufferModel, ChainBufferSpec, ChainBufferProofs, NodeModel, NodeSpec, NodeProofs, NodeLemmas, NodeCases, Props_Node | Blockchain over MemoryBuffer: chain/blockchain.cpp with execution/execution.cpp, state/memory_buffer.cpp, processor, EVM host and IntraBlockState composed. The buffer is changed in place; unwinding applies the changes recorded in it; a lock-step relation follows the abstract chain of Blockchain*, with as many unwinding steps as blocks on the stack. Parameters: bytecode interpreter, precompiles, keccak, block hash, pre-validation, receipts root. |
| Warm | WarmProofs.v, Props_Warm.v | C85 over EvmModel and StateModel: no new model, the accesses inside a program and through frames |
| Wasm | WasmModel.v, WasmSpec.v, WasmProofs.v, WasmLemmas.v, Props_Wasm.v | wasm/silkworm_wasm_api.cpp: numbers, configurations, transactions, blocks, accounts, states. Not modelled: allocation, the exported memory, the functions that only forward (keccak256, difficulty, recover_sender, check_intrinsic_gas, the block chain object, which is C30's) |
| DbTool | cmd/dbtool.cpp (clear, freelist, scan, compact, copy), db/silkworm/db/mdbx.cpp (for_each, for_count) | Environments as named tables with flags and records; libmdbx's put with MDBX_APPEND/APPENDDUP/UPSERT as in DbTable; files by content. Left out: opening environments, progress output, disk space, signals, tables/staged commands |
| FsModel, DataDirModel, DataDirSpec, FsProofs, DataDirProofs, DataDirLemmas, Props_DataDir | db/silkworm/common/data_dir.cpp, temp_dir.cpp; db/silkworm/db/mdbx.cpp open_env; libmdbx/mdbx.c++ make_flags and the *_from_flags functions | POSIX paths and the std::filesystem functions used, as in libstdc++; no symbolic links, permissions, concurrent changes or I/O errors; the default storage path and mdbx_env_open itself not modelled |
| ExtractModel, ExtractSpec, ExtractProofs, ExtractLemmas, Props_Extract | cmd/extract_headers.cpp; boost/beast/core/detail/base64.ipp encode | writing of the file as its text; options as arguments |
| LogModel, LogSpec, LogProofs, LogLemmas, Props_Log | db/silkworm/common/log.hpp, log.cpp, tee.hpp | one step per character written; the time stamp is part of the text of a message; the streams behind the tee are texts with room |
| ChangesModel, ChangesSpec, ChangesProofs, ChangesLemmas, ChangesCases, Props_Changes | cmd/check_changes.cpp, cmd/scan_txs.cpp | execution of a block a parameter, as in ExecModel; command line, times and the interrupt signal left out |
| CommandModel, CommandSpec, CommandProofs, CommandLemmas, Props_Command | cmd/hashstate.cpp, history_index.cpp, log_index.cpp, tx_lookup.cpp, blockhashes.cpp; stagedsync/util.cpp check_stagedsync_error | opening of the database, directories for temporary files and the command line left out |
| SendersTool | SendersToolModel, SendersToolProofs, SendersToolLemmas, SendersToolFinal, SendersToolCases, Props_SendersTool | cmd/check_senders.cpp, whose worker and farm are copies of recovery_worker.cpp and recovery_farm.cpp with differences: the workers, the reading and the collecting are those of FarmModel, the loop that dispatches, the unwinding and the command are its own |
| Consensus | ConsensusSpec, ConsensusModel, ConsensusProofs, ConsensusProofs2, ConsensusProofs3, ConsensusCases, Props_Consensus | cmd/consensus.cpp: state before and after, transaction tests, networks, counting and status; JSON objects arrive as lists of members |
| IndexModel (transaction lookup) | LookupProofs, Props_Lookup | the loop over the bodies in stage_tx_lookup.cpp, by the positions in the table of transactions of ToolProofs |
| ConsensusRun | ConsensusRunModel, ConsensusRunProofs, ConsensusRunCases, Props_ConsensusRun | cmd/consensus.cpp: run_block and blockchain_test; Blockchain::insert_block (C30) and the root of the buffer are parameters, output to the console is left out |
| ConsensusDiff | ConsensusDiffModel, ConsensusDiffProofs, ConsensusDiffCases, Props_ConsensusDiff | cmd/consensus.cpp: difficulty_test; std::stoll and intx::from_string are parameters, the list of files with their configurations is left out |

Not modelled: the interpreter itself, cryptography other than Keccak, Ethash, SHA-256, RIPEMD-160 and BLAKE2 F, MDBX pages and transactions' durability, the network and RPC code,
the parsing of command lines, the list of files of cmd/consensus.cpp, and cmd/benchmark_precompile.cpp.

## Where the code deviates (each is a `_refuted` theorem or an excluded case with a reason)

1. Transaction decoding reads `from[0]` of an empty view (C08). 2. `eip2718_decode` does not check the inner list length (C05).
3. `decode_account_from_storage` does not check the length byte (C08). 4. `is_valid_signature` joins the two upper bounds with
`&&` (C20, C23). 5. `v` below 35 wraps to a huge chain id (C23). 6. `create_contract` reuses an incarnation after destruction and
credit in one block (C25, C27, C28). 7. `MemoryBuffer::update_account` forgets the previous incarnation (C28), and `unwind_block`
does not restore it (C29). 8. `Blockchain::insert_block` of a canonical block unwinds and then throws `length_error` (C30).
9. `parse_size` wraps (C60). 10. `expected_base_fee_per_gas` dereferences an empty optional when the parent lacks a base fee
(C18, excluded). 11. A view into a scratch buffer that is enlarged dangles (C13, excluded). 12. `gas_limit` of 2^63 or more becomes
a negative gas for the interpreter (C31, C33: excluded). 13. `expmod_run` adds lengths modulo 2^64 (C35: excluded, the gas is
beyond any limit). 14. A collecting `HashBuilder` copies 32 bytes out of a branch child that is shorter (C65), and an empty key is
taken for no key (C39, excluded). 15. `unmarshal_node` accepts records whose number of hashes does not match the mask (C41). 16. `read_transactions` walks from the
first id without looking at the ids it meets: with a gap it returns the transactions of other ids (C45). 17. `db::Buffer::upsert_storage_value` erases the first record
of the contract, not that of the slot (C46). 18. An account that is absent before and after is recorded in the change set (C47).
19. Account reads as of a block search the code table, and slot reads need a chunk under exactly the block asked for (C48).
20. `bitmap::cut_left` never splits, and drops the largest element of a bitmap over the limit (C49).
21. `Collector` loses an empty last entry after a spill, and cannot be used again after loading from files: its providers are null
pointers (C50).
22. `unwind_execution` keeps accounts created by the unwound blocks, stops only at a record of exactly block n, throws for a contract
without code, removes another slot of the contract, and never cuts the storage change sets (C51).
23. The execute command records progress for blocks that it has not written when the chain ends before the last block asked for: silkworm_execute_blocks
returns kSilkwormBlockNotFound without writing its buffer. stage_execution opens a read-only transaction, never records progress, and repeats the
last block of every full batch (C52).
24. The HashState stage advances by 20 instead of 32 bytes in the key of a slot and hashes the empty rest of the key instead of the location, so slots are
never where the trie looks for them and a contract with two slots makes MDBX_APPEND throw; it looks for changed slots under a key that the state table
never has; it leaves deleted accounts in place; unwinding erases changed records instead of restoring them; at block 0 it cannot run twice (C53).
25. The BlockHashes stage never assigns the result of to_next, so it returns kStageBadChainSequence as soon as there is a next block (and its transaction
is read-only). TxLookup, LogIndex and StorageHistoryIndex search for exactly 8 bytes in tables with keys of 40, 12 and 36 bytes and so index nothing;
LogIndex then sets its progress to 0. AccountHistoryIndex works only when the block of its last progress has a change (so never, when block 0 has
none), loses the last block of a bitmap that is over the limit of a chunk, and throws after a run that ended with block 0 (C54).
26. `DbTrieLoader` looks for storage under hash(address) and incarnation (40 bytes) but `stage_hashstate` writes 72-byte keys (finding on C53), so the root it computes is that of a state without storage (`C67_after_hashstate_refuted`). `regenerate_db_tries` does not clear the two trie tables, so nodes of an earlier state stay (`C67_stale_refuted`).
27. `db::Buffer` keeps slots that were set to zero, and its `account_storage_root` puts them into the storage trie with the RLP of the empty string (`C68_zero_slot_refuted`); its state root also covers only the accounts in the buffer, not those in the database.
28. `initialize_with_genesis` stores the nonce of the genesis header least significant byte first (`C69_nonce_refuted`: the hash of any network with a nonce that is not symmetric, as the main network's 0x42, is wrong), writes the canonical hash under a 40-byte key, so that block 0 and the chain configuration are not found by number (`C69_canonical_refuted`), and writes the total difficulty as raw little-endian bytes, which read_total_difficulty reads back only for 1 to 127 (`C69_difficulty_refuted`). A file with an empty alloc object is refused by an exception (`C69_empty_alloc_refuted`). Code, storage and nonces in the allocations, and the coinbase, are ignored.
29. The listener of the log index gets only byte strings, so log data of 32 bytes is indexed as a topic and data of 20 bytes as an address (`C54_log_data_refuted`).
30. `Worker` publishes kStarted before it clears kicked_ (worker.cpp:35-37). A kick() made after start(true) has returned can be lost, and so can the one inside stop(true), which then never returns (C56_kick_refuted, C56_stop_refuted). stop(true) while the worker is starting is ignored and then waits for it; stop(true) on a worker that never started dereferences a null pointer; start(true) spins for ever when the work ends before the state is looked at; the destructor stores kStopping without a kick, so it hangs on a waiting worker; and after stop(false) the thread is never joined, so the destructor, or a second start, ends the program (the other C56 refutations).
31. RecoveryFarm: `did_fail = bufferize_workers_results()` (recovery_farm.cpp:355) is inverted, since the function returns true on success; so a chain of more than one batch throws as soon as a worker is ready before the last batch is handed out, and never returns when there are more batches than workers. A worker sets its status before it announces its batch, so the last collection can miss results and still report success. Results are paired with canonical hashes by counting, but blocks without transactions have no result, so after an empty block all senders are stored under the hash of an earlier block. A failed recovery is reported as success. A range that ends before the last canonical block is refused, since fill_canonical_headers does not stop at height_to. A block with more transactions than max_batch_size is written beyond data_. unwind seeks the exact key (n+1, 0...0), so it removes nothing but sets the progress back; to block 1 it removes the senders of block 1 too. The kick given to a worker just created can be lost (see 30). stage_senders and unwind_senders never commit the transaction they open.
32. get_boundary_from_diff (ethash.cpp) divides 2^256-1, not 2^256, by the difficulty: for a power of two, such as the minimum difficulty 131072, a proof of work whose result equals 2^256/difficulty satisfies the Yellow Paper's rule and is refused (C71_boundary_refuted).
33. verify_full for a block number dereferences a null context when the cache cannot be allocated (C71_memory_refuted), and keeps the context in a static variable without a lock.
34. find_largest_unsigned_prime(2) is 1; the bound of the data set size wraps to 0 at epoch 65408, which makes hash_mix divide by zero, and item indices wrap from epoch 32640 (C72_two_refuted, C72_wrap_refuted).
35. calculate_epoch_from_seed finds epochs from 30000 on only when the call before found the epoch before (C73_history_refuted).
36. crypto/sha-256.c:178 declares the message schedule `uint32_t w[16]` inside the loop over the four groups of rounds, without initialiser, and the groups after the first read what the previous one wrote: the lifetime of the array ended, its contents are indeterminate by the C standard for every input (C74_indeterminate_refuted). Compilers keep the array in place, so the digest comes out right (C74_sha256_partial).
37. crypto/rmd160.cpp:41 passes 0 for the high word of the length: for an input of 2^32 bytes or more the length field of the padding is wrong (C75_length_refuted).
38. cmd/check_tx_lookup.cpp compares with a counter of bodies in place of the number of the block: competing bodies give false alarms, gaps hide errors (C81_false_alarm_refuted, C81_missed_refuted).
39. cmd/check_hashstate.cpp:83 tests the length of an account key in the part on storage: it then copies 8 bytes from behind the key (and substr throws), and records of storage are skipped (C82_undefined_refuted, C82_storage_refuted).
40. cmd/check_pow.cpp ends with status 0 when a header fails and casts the height to 32 bits (C83_status_refuted, C83_height_refuted).
41. Unwinding two blocks, one that destroys a contract and credits its address and one that creates a contract there again, zeroes slots of the contract that comes back (C29_unwind_refuted): the second contract has the incarnation of the first, its slots count as zero before its creation, and zero is what the change set records.
42. Accounts made through the C interface always have incarnation 0, which the execution takes for an account that is no contract (C86_destroyed_storage_refuted): when a contract set up with storage destroys itself and its address is paid in the same block, its initial and new incarnation are both 0, the old words are read again and remain in the state. The interface has no way to set the incarnation. Deleting an account through it does not record its incarnation and leaves its words, which a later account at the address shows.
43. cmd/dbtool.cpp and db/mdbx.cpp: (a) do_clear: at the end of standard input the empty string matches the pattern and counts as a yes although the prompt says [y/N]; (b) do_compact --replace: `fs::rename(src_path, tgt_path)` has its arguments swapped, after the source was removed, so that the command always fails and the source has no data file; (c) do_copy: `tgt_txn.commit()` after a table ends the transaction and no new one is started, so that the next wanted table throws; (d) do_copy --create: EnvConfig.create is never set, so open_env throws; (e) for_each and for_count read the record once before the loop and hand it out every time; (f) for_count's condition is `iterations || !eof`, so it runs past the end or, with a smaller count, decrements below zero and goes on for 2^64 rounds. Theorems C88_*_refuted, C89_*_refuted.
44. db/common/data_dir.cpp and db/mdbx.cpp: (a) from_chaindata compares the last two names without regard to case, but the data directory it returns has them in lower case, so on a case-sensitive file system get_chaindata_path() is another directory than the one given, and create_tree makes it, empty; (b) from_chaindata refuses `erigon/chaindata` relative to the base directory and paths with doubled separators; (c) open_env creates the directory before it checks that the options do not conflict, so a refused call leaves it behind; (d) MDBX_COALESCE is among the default flags, but op.reclaiming is never set from them, so the flag is lost.
45. db/common/log.hpp and tee.hpp: (a) teebuf::overflow returns EOF when either stream fails, which sets badbit on the common stream, so the failure of one (a full disk under the log file) silences the other (the console) for the rest of the process; (b) the mutex is taken in the constructor of the temporary, before the operands of << are evaluated, so an operand that logs deadlocks with itself.
46. cmd/check_changes.cpp and scan_txs.cpp: (a) account_changes().at(block_num) throws for a valid block that changes no account (an empty block without reward, as on clique chains), so check_changes ends with -5 and does not look at the blocks after it; (b) check_changes ends with status 0 whatever it reports; (c) scan_txs prints rows only at multiples of 50000, so the transactions after the last one are counted and never reported (`--from 1 --to 100` prints nothing); (d) scan_txs ends with status 0 although blocks were not valid.
47. cmd/hashstate.cpp, tx_lookup.cpp, log_index.cpp, history_index.cpp, stagedsync/util.cpp and stages.cpp: (a) `hashstate --full --increment` clears the tables and then promotes only the changes after block 0, so accounts that never changed are lost, and the progress says all is done; (b) because of findings on the stages (MDBX_SET with a partial key), --full of tx_lookup, log_index and history_index --storage deletes a good index, builds nothing and ends with status 0; (c) check_stagedsync_error lets kStageBadBlockHash pass, so blockhashes ends with 0 on a bad hash; (d) get_default_stages gives stage 7 (interhashes) the unwind function of stage 6, so a loop over it would unwind the hashed state twice (read only, not modelled).
48. cmd/check_senders.cpp: unlike recovery_farm.cpp (31) it tells success from failure when it collects, so more than one batch can be recovered; but the farm may give a worker its next batch between signal_completed and batch_.reset() (RecoveryWorker::work), and the worker then dereferences a null batch. As in 31, results announced after the last collection are lost with status 0, a kick can be lost, results are paired with hashes by counting, so blocks after one without transactions get the hash of another block, and what the last bufferize_workers_results returns is not looked at, so a failed recovery has status 0: with --force the command then commits a table from which the old senders have been removed. unwind(1) clears the whole table though the progress says 1, so `recover --force --from 2` removes the senders of block 1 for good.
49. The consensus test runner (C99-C101) returns the number of failed tests as its status, of which the system keeps 8 bits: 256 failures are a success. It compares the number of accounts with the number of keys of the expected section, so one address spelled in two ways hides an account that should not be there. An expected sender with the prefix 0x never matches.
50. In a blockchain test (C102) a block passes as invalid whatever the reason it is refused for, even when its bytes are no hexadecimal at all, and a block that should be accepted is inserted without a look at its state root. Bytes after the genesis block are ignored, while bytes after any other block are an error.
51. A difficulty test (C103) of a block dated before its parent is judged by a difference of timestamps that wraps around, so it asks for a difficulty that is too low. Any value of parentUncles other than the hash of the empty list, 0x00 among them, counts as uncles.
