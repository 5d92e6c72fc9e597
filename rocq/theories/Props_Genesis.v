(** C69: a new database initialised from a genesis file. *)
From stdpp Require Import gmap.
From Verif Require Import Base RlpSpec TypesModel TrieLemmas BlockModel BlockSpec DbTable DbModel DbCases BufferModel StateRootSpec StateRootCases MemRootSpec MemRootModel MemRootCases GenesisSpec GenesisModel GenesisLemmas GenesisCases.

(** Initialising an empty database succeeds. What is read back under number 0 and the returned hash is the genesis header with the
    state root of the allocations and an empty body, and the accounts are the allocated ones. Missing: the nonce of the header is
    reversed (refuted below when that matters), nothing is found by number alone, and the total difficulty is unreadable. *)
Theorem C69_genesis_partial : forall keccak, hash_32 keccak -> forall visit, (forall m, account_order m (visit m)) -> forall g, genesis_ok g -> g_alloc g <> Some [] -> no_hash_collision keccak (genesis_state g) ->
  forall bm_read, exists root h hash d, initialize keccak visit g empty_db = Done (hash, d) /\ is_state_root keccak (genesis_state g) root
    /\ h = with_nonce (genesis_block g root) (rev (be_fixed 8 (g_nonce g))) /\ hash = keccak (RLP (header_item h)) /\ read_header d 0 hash = Done (Some h)
    /\ (forall senders, read_body d 0 hash senders = Done (Some (mkBody [] []))) /\ lookup (d kHeaderNumbers) hash = Some (be_fixed 8 0) /\ lookup (d kConfig) hash = Some (g_config g)
    /\ (forall a, a < 2 ^ 160 -> read_account bm_read d a None = Done (accounts (genesis_state g) a)).
Proof. exact read_back. Qed.
Print Assumptions C69_genesis_partial.
Theorem C69_symmetric_nonce_partial : forall g, rev (be_fixed 8 (g_nonce g)) = be_fixed 8 (g_nonce g) -> forall root, with_nonce (genesis_block g root) (rev (be_fixed 8 (g_nonce g))) = genesis_block g root.
Proof. exact palindrome. Qed.
Print Assumptions C69_symmetric_nonce_partial.
Example C69_case : genesis_ok main_like /\ g_alloc main_like <> Some [] /\ no_hash_collision flip_hash (genesis_state main_like) /\ rev (be_fixed 8 (g_nonce main_like)) <> be_fixed 8 (g_nonce main_like) /\ 128 <= g_difficulty main_like
  /\ accounts (genesis_state main_like) 3 = Some (mkAccount 0 1000 kEmptyHash 0) /\ accounts (genesis_state main_like) 4 = None.
Proof. exact main_like_ok. Qed.
Example C69_case_quiet : genesis_ok quiet /\ g_alloc quiet <> Some [] /\ no_hash_collision flip_hash (genesis_state quiet) /\ rev (be_fixed 8 (g_nonce quiet)) = be_fixed 8 (g_nonce quiet) /\ 0 < g_difficulty quiet < 128.
Proof. exact quiet_ok. Qed.
Example C69_case_hash : hash_32 flip_hash /\ forall m : gmap N (option account), account_order m (map_to_list m).
Proof. exact (conj flip_32 account_order_exists). Qed.

(** The nonce is stored least significant byte first: unless it reads the same both ways, the header read back is no genesis header. *)
Theorem C69_nonce_refuted : forall keccak, hash_32 keccak -> forall visit, (forall m, account_order m (visit m)) -> forall g, genesis_ok g -> g_alloc g <> Some [] -> no_hash_collision keccak (genesis_state g) ->
  forall hash d, rev (be_fixed 8 (g_nonce g)) <> be_fixed 8 (g_nonce g) -> initialize keccak visit g empty_db = Done (hash, d) ->
  exists h, read_header d 0 hash = Done (Some h) /\ hd_nonce h <> be_fixed 8 (g_nonce g) /\ forall root, h <> genesis_block g root.
Proof. exact nonce_reversed. Qed.
Print Assumptions C69_nonce_refuted.

(** Block 0 is not found by its number, and neither is the configuration of the chain. *)
Theorem C69_canonical_refuted : forall keccak, hash_32 keccak -> forall visit, (forall m, account_order m (visit m)) -> forall g, genesis_ok g -> g_alloc g <> Some [] -> no_hash_collision keccak (genesis_state g) ->
  forall hash d, initialize keccak visit g empty_db = Done (hash, d) -> (forall senders, read_block d 0 senders = Done None) /\ read_chain_config d = None.
Proof. exact not_canonical. Qed.
Print Assumptions C69_canonical_refuted.

(** The total difficulty of the genesis block is read back exactly if it is between 1 and 127. *)
Theorem C69_difficulty_refuted : forall keccak, hash_32 keccak -> forall visit, (forall m, account_order m (visit m)) -> forall g, genesis_ok g -> g_alloc g <> Some [] -> no_hash_collision keccak (genesis_state g) ->
  forall hash d, initialize keccak visit g empty_db = Done (hash, d) -> read_total_difficulty d 0 hash = Done (Some (g_difficulty g)) <-> 0 < g_difficulty g < 128.
Proof. exact difficulty_read. Qed.
Print Assumptions C69_difficulty_refuted.

(** An address allocated twice is refused, and so is a file whose allocations are present but empty. *)
Theorem C69_duplicates : forall keccak visit g d, ~ List.NoDup (map fst (allocations g)) -> initialize keccak visit g d = Throws.
Proof. exact duplicates. Qed.
Print Assumptions C69_duplicates.
Example C69_case_twice : ~ List.NoDup (map fst (allocations (mkGenesis (Some [(3, 1); (3, 2)]) [] None 1 5000 0 0 []))).
Proof. exact twice. Qed.
Theorem C69_empty_alloc_refuted : forall keccak visit g d, g_alloc g = Some [] -> initialize keccak visit g d = Throws.
Proof. exact empty_alloc. Qed.
Print Assumptions C69_empty_alloc_refuted.
