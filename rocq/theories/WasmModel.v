(** Model of the C interface for WebAssembly (wasm/silkworm_wasm_api.cpp): setting up and reading a state in memory, and
    building a chain configuration. A pointer to an address or a hash is its 20 or 32 bytes; a Bytes object is its bytes; a
    null pointer is None. Allocation (new, malloc) succeeds. Decoding, hashing, sender recovery, difficulty, intrinsic gas and
    insertion of blocks call the functions modelled elsewhere and add nothing to them. *)
From stdpp Require Import gmap.
From Verif Require Import Base RlpModel TypesModel UtilModel ChainModel StateModel MemBufModel MemRootModel TxModel BlockModel.

(** silkworm_wasm_api.cpp:47; intx::uint256{a, b, c, d}: limbs from the least significant *)
Definition new_uint256_le (a b c d : N) : N := a + b * 2 ^ 64 + c * 2 ^ 128 + d * 2 ^ 192.

(** silkworm_wasm_api.cpp:51-67; config.hpp:55-69 *)
Definition lookup_config (chain_id : N) : option chain_config := lookup_chain_config chain_id.
Definition new_config (chain_id : N) : chain_config := mkCfg chain_id kNoProof (repeat None EVMC_MAX_REVISION) None None.
Definition config_set_fork_block (c : chain_config) (fork block : N) : chain_config := set_revision_block c fork (Some block).
Definition config_set_muir_glacier_block (c : chain_config) (block : N) : chain_config :=
  mkCfg (cfg_chain_id c) (cfg_seal_engine c) (cfg_fork_blocks c) (Some block) (cfg_dao_block c).
Definition config_set_dao_block (c : chain_config) (block : N) : chain_config :=
  mkCfg (cfg_chain_id c) (cfg_seal_engine c) (cfg_fork_blocks c) (cfg_muir_glacier c) (Some block).

(** silkworm_wasm_api.cpp:75-84, 120-129: an object only if the whole text is one encoding *)
Definition new_transaction (rlp : bytes) : option transaction := match decode_tx rlp with Ok (t, []) => Some t | _ => None end.
Definition new_block (rlp : bytes) : option block := match decode_block rlp with Ok (b, []) => Some b | _ => None end.

(** silkworm_wasm_api.cpp:103-110; types/account.hpp:32-36. The only source of accounts besides reading them from a state; the
    caller may overwrite balance and code hash, not the incarnation (114-118). *)
Definition new_account (nonce : N) (balance : option N) : account := mkAccount nonce (default 0 balance) kEmptyHash 0.

(** silkworm_wasm_api.cpp:141 *)
Definition new_state : membuf := mem_empty.
(** silkworm_wasm_api.cpp:152-154, util.cpp:72-84 *)
Definition address_from_ptr (p : bytes) : N := be_to_N (to_address (firstn 20 p)).
Definition bytes32_from_ptr (p : bytes) : bytes := to_bytes32 (firstn 32 p).
(** silkworm_wasm_api.cpp:156-160, memory_buffer.cpp:211-224: the sizes of accounts_ and of the inner map *)
Definition state_number_of_accounts (m : membuf) : nat := size (m_accounts m).
Definition state_storage_size (m : membuf) (address : bytes) (acc : account) : nat :=
  size (base.filter (fun e => fst (fst e) = (address_from_ptr address, a_incarnation acc)) (m_storage m)).
(** silkworm_wasm_api.cpp:162-185 *)
Definition state_read_account_new (m : membuf) (address : bytes) : option account := read_account (mem_reader m) (address_from_ptr address).
Definition state_read_code_new (m : membuf) (code_hash : bytes) : bytes := read_code (mem_reader m) (bytes32_from_ptr code_hash).
Definition state_read_storage_new (m : membuf) (address : bytes) (acc : account) (location : bytes) : bytes :=
  zeroless_view (be_fixed 32 (read_storage (mem_reader m) (address_from_ptr address) (a_incarnation acc) (be_to_N (to_bytes32 location)))).
(** silkworm_wasm_api.cpp:187-203 *)
Definition state_update_account (m : membuf) (address : bytes) (current : option account) : membuf :=
  update_account m (address_from_ptr address) None current.
Definition state_update_code (m : membuf) (address : bytes) (acc : account) (code : bytes) : membuf :=
  update_account_code m (a_code_hash acc) code.
Definition state_update_storage (m : membuf) (address : bytes) (acc : account) (location value : bytes) : membuf :=
  update_storage m (address_from_ptr address) (a_incarnation acc) (be_to_N (to_bytes32 location)) 0 (be_to_N (to_bytes32 value)).
(** silkworm_wasm_api.cpp:145-150; the hash maps are visited in the order of the two lists (MemRootModel) *)
Definition state_root_hash_new (keccak : bytes -> bytes) (accs : list (N * account)) (storage : N -> N -> list (N * N)) : option bytes :=
  mem_root keccak accs storage.
