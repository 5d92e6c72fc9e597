(** C67: the state root and the intermediate nodes computed from the hashed tables. *)
From Verif Require Import Base RlpSpec TypesModel TypesSpec TrieSpec TrieLemmas DbTable DbModel DbSpec DbCases EtlModel EtlSpec EtlLemmas BufferModel BufferCases UnwindModel HashStateModel HashStateSpec HashStateProofs HashStateCases StateRootSpec StateRootModel StateRootProofs StateRootLemmas StateRootCases.

(** A state has at most one state root. *)
Theorem C67_root_unique : forall keccak s r r', is_state_root keccak s r -> is_state_root keccak s r' -> r = r'.
Proof. exact (fun keccak s => root_unique keccak (state_content keccak s)). Qed.
Print Assumptions C67_root_unique.

(** If the hashed tables hold a state, the loader computes the state root of it and hands exactly the intermediate nodes of its
    account trie and of its storage tries to the two collectors. *)
Theorem C67_root : forall keccak, hash_32 keccak -> forall d, wf_db d -> forall s, state_ok s -> contracts_only s -> hashed_state keccak s d -> spread keccak s ->
  exists root an sn, calculate_root keccak d = Done (root, an, sn) /\ is_state_root keccak s root
  /\ (forall k v, In (k, v) an <-> account_node keccak s k v) /\ (forall k v, In (k, v) sn <-> storage_node keccak s k v).
Proof. exact loader_root. Qed.
Print Assumptions C67_root.

(** Regenerating the tries of a database without intermediate nodes stores exactly these nodes. *)
Theorem C67_regenerate_empty : forall keccak d s pick root an sn, hash_32 keccak -> wf_db d -> state_ok s -> contracts_only s -> hashed_state keccak s d -> spread keccak s -> least_first pick ->
  calculate_root keccak d = Done (root, an, sn) -> collectable an -> collectable sn -> d kTrieOfAccounts = [] -> d kTrieOfStorage = [] ->
  exists d', regenerate_db_tries keccak pick d None = Done (root, d')
  /\ (forall k v, In (k, v) (d' kTrieOfAccounts) <-> account_node keccak s k v) /\ (forall k v, In (k, v) (d' kTrieOfStorage) <-> storage_node keccak s k v).
Proof. exact regenerate_empty. Qed.
Print Assumptions C67_regenerate_empty.

(** In general it returns the state root, throws exactly if another root was expected, stores the nodes, and changes nothing else.
    Missing for the full property: that no other nodes are in the tables afterwards (refuted below). *)
Theorem C67_regenerate_partial : forall keccak, hash_32 keccak -> forall d, wf_db d -> forall s, state_ok s -> contracts_only s -> hashed_state keccak s d -> spread keccak s ->
  forall pick root an sn, least_first pick -> calculate_root keccak d = Done (root, an, sn) -> collectable an -> collectable sn ->
  is_state_root keccak s root /\ exists d',
    regenerate_db_tries keccak pick d None = Done (root, d') /\ regenerate_db_tries keccak pick d (Some root) = Done (root, d') /\ (forall e, e <> root -> regenerate_db_tries keccak pick d (Some e) = Throws)
    /\ wf_db d'
    /\ (forall k v, account_node keccak s k v -> lookup (d' kTrieOfAccounts) k = Some v) /\ (forall k, (forall v, ~ account_node keccak s k v) -> lookup (d' kTrieOfAccounts) k = lookup (d kTrieOfAccounts) k)
    /\ (forall k v, storage_node keccak s k v -> lookup (d' kTrieOfStorage) k = Some v) /\ (forall k, (forall v, ~ storage_node keccak s k v) -> lookup (d' kTrieOfStorage) k = lookup (d kTrieOfStorage) k)
    /\ (forall t, t <> kTrieOfAccounts -> t <> kTrieOfStorage -> d' t = d t).
Proof. exact regenerate. Qed.
Print Assumptions C67_regenerate_partial.

(** A node of an earlier state that is not a node of this state stays. *)
Theorem C67_stale_refuted : forall keccak d s pick root an sn k v, hash_32 keccak -> wf_db d -> state_ok s -> contracts_only s -> hashed_state keccak s d -> spread keccak s -> least_first pick ->
  calculate_root keccak d = Done (root, an, sn) -> collectable an -> collectable sn -> lookup (d kTrieOfAccounts) k = Some v -> (forall w, ~ account_node keccak s k w) ->
  exists d', regenerate_db_tries keccak pick d None = Done (root, d') /\ lookup (d' kTrieOfAccounts) k = Some v.
Proof. exact stale. Qed.
Print Assumptions C67_stale_refuted.

(** The hypotheses: an account and a contract with three slots; a node that is not a node of this state. *)
Example C67_case : hash_32 flip_hash /\ wf_db root_db /\ state_ok root_state /\ contracts_only root_state /\ hashed_state flip_hash root_state root_db /\ spread flip_hash root_state
  /\ exists root an sn, calculate_root flip_hash root_db = Done (root, an, sn) /\ collectable an /\ collectable sn /\ length sn = 1%nat /\ lookup (root_db kTrieOfAccounts) [7] = Some [1; 2; 3] /\ (forall v, ~ account_node flip_hash root_state [7] v).
Proof. exact root_case. Qed.
Example C67_case_pick : least_first least_of.
Proof. exact least_of_first. Qed.

(** After a first run of the HashState stage over the plain state of s, the loader computes the root of the state without storage:
    the stage puts storage under keys at which the loader does not look (C53). If a contract has a slot that is not zero, this is
    the root of another trie than that of the state. *)
Theorem C67_after_hashstate_refuted : forall keccak, hash_32 keccak -> forall pick d d' s n, least_first pick -> wf_db d -> shapes d -> collectable (d kPlainState) -> collectable (d kPlainContractCode) -> state_ok s -> plain_accounts s d ->
  n < 2 ^ 64 -> get_stage_progress d kExecutionKey = Done n -> d kHashedAccounts = [] -> d kHashedStorage = [] -> d kContractCode = [] -> get_stage_progress d kHashStateKey = Done 0 -> stage_hashstate keccak pick d = Done d' ->
  exists o an sn, is_trie (state_content keccak (without_storage s)) o /\ calculate_root keccak d' = Done (root_of keccak o, an, sn)
  /\ forall a acc r l o', a < 2 ^ 160 -> accounts s a = Some acc -> is_root keccak (storage_content keccak s a (a_incarnation acc)) r -> l < 2 ^ 256 -> slots s a (a_incarnation acc) l <> 0 ->
     (forall a b, a < 2 ^ 160 -> b < 2 ^ 160 -> accounts s a <> None -> accounts s b <> None -> keccak (be_fixed 20 a) = keccak (be_fixed 20 b) -> a = b) ->
     (forall x, keccak x = empty_root -> x = [0x80]) -> is_trie (state_content keccak s) o' -> o <> o'.
Proof. exact after_root. Qed.
Print Assumptions C67_after_hashstate_refuted.
Example C67_case_after : wf_db first_db /\ shapes first_db /\ collectable (first_db kPlainState) /\ collectable (first_db kPlainContractCode) /\ get_stage_progress first_db kExecutionKey = Done 2 /\ first_db kHashedAccounts = [] /\ first_db kHashedStorage = [] /\ first_db kContractCode = []
  /\ get_stage_progress first_db kHashStateKey = Done 0 /\ exists d', stage_hashstate pad_hash least_of first_db = Done d'.
Proof. exact first_db_case. Qed.
Example C67_case_after_state : state_ok first_state_of /\ plain_accounts first_state_of first_db /\ accounts first_state_of 3 = Some c_account /\ a_incarnation c_account = 1 /\ slots first_state_of 3 1 1 <> 0
  /\ (exists r, is_root flip_hash (storage_content flip_hash first_state_of 3 1) r)
  /\ (forall a b, a < 2 ^ 160 -> b < 2 ^ 160 -> accounts first_state_of a <> None -> accounts first_state_of b <> None -> flip_hash (be_fixed 20 a) = flip_hash (be_fixed 20 b) -> a = b) /\ (forall x, flip_hash x = empty_root -> x = [0x80])
  /\ exists d', stage_hashstate flip_hash least_of first_db = Done d'.
Proof. exact first_case. Qed.
