(** C53: the HashState stage. *)
From Verif Require Import Base RlpModel TypesModel DbTable DbModel DbSpec DbCases EtlModel EtlSpec EtlLemmas BufferModel BufferCases UnwindModel UnwindCases HashStateModel HashStateSpec HashStateProofs HashStateProofs2 HashStateCases.

(** A first run (progress 0, empty hashed tables) that returns has put exactly the accounts and the code hashes under their hashed
    keys. Missing: storage, which is refuted below. *)
Theorem C53_first_partial : forall keccak, hash_length keccak -> forall pick, least_first pick -> forall d, wf_db d -> shapes d -> collectable (d kPlainState) -> collectable (d kPlainContractCode) ->
  forall n d', n < 2 ^ 64 -> get_stage_progress d kExecutionKey = Done n -> d kHashedAccounts = [] -> d kHashedStorage = [] -> d kContractCode = [] -> get_stage_progress d kHashStateKey = Done 0 -> stage_hashstate keccak pick d = Done d' ->
  accounts_hashed keccak d d' /\ codes_hashed keccak d d' /\ get_stage_progress d' kHashStateKey = Done n /\ wf_db d'
  /\ (forall k v, In (k, v) (d' kHashedStorage) -> length k = 72%nat) /\ (forall t, t <> kHashedAccounts -> t <> kHashedStorage -> t <> kContractCode -> t <> kSyncStageProgress -> d' t = d t).
Proof. exact first_run. Qed.
Print Assumptions C53_first_partial.
(** It returns if addresses do not collide and no two slot records agree in incarnation and in 20 bytes of the address's hash. *)
Theorem C53_first_completes : forall keccak, hash_length keccak -> forall pick, least_first pick -> forall d, wf_db d -> shapes d -> collectable (d kPlainState) -> collectable (d kPlainContractCode) ->
  forall n, get_stage_progress d kExecutionKey = Done n -> d kHashedAccounts = [] -> d kHashedStorage = [] -> d kContractCode = [] -> get_stage_progress d kHashStateKey = Done 0 ->
  distinct_hashes keccak (fun a => length a = 20%nat /\ ((exists v, In (a, v) (d kPlainState)) \/ exists i v, In (a ++ i, v) (d kPlainContractCode))) ->
  (forall a v w, length a = 20%nat -> In (a, v) (d kPlainState) -> In (a, w) (d kPlainState) -> v = w) ->
  (forall k v k' v', length k = 28%nat -> length k' = 28%nat -> In (k, v) (d kPlainState) -> In (k', v') (d kPlainState) -> skipn 20 k = skipn 20 k' -> firstn 20 (keccak (firstn 20 k)) = firstn 20 (keccak (firstn 20 k')) -> k = k' /\ v = v') ->
  exists d', stage_hashstate keccak pick d = Done d'.
Proof. exact first_completes. Qed.
Print Assumptions C53_first_completes.
Example C53_first_case : wf_db first_db /\ shapes first_db /\ collectable (first_db kPlainState) /\ collectable (first_db kPlainContractCode) /\ get_stage_progress first_db kExecutionKey = Done 2 /\ first_db kHashedAccounts = [] /\ first_db kHashedStorage = [] /\ first_db kContractCode = []
  /\ get_stage_progress first_db kHashStateKey = Done 0 /\ exists d', stage_hashstate pad_hash least_of first_db = Done d'.
Proof. exact first_db_case. Qed.
(** A slot is never where the hashed state has to have it. *)
Theorem C53_storage_refuted : forall keccak, hash_length keccak -> forall pick, least_first pick -> forall d d' n a i l s, wf_db d -> shapes d -> collectable (d kPlainState) -> collectable (d kPlainContractCode) -> n < 2 ^ 64 -> get_stage_progress d kExecutionKey = Done n ->
  d kHashedAccounts = [] -> d kHashedStorage = [] -> d kContractCode = [] -> get_stage_progress d kHashStateKey = Done 0 -> stage_hashstate keccak pick d = Done d' ->
  length a = 20%nat -> length i = 8%nat -> length l = 32%nat -> In (a ++ i, l ++ s) (d kPlainState) -> (forall v, ~ In (keccak a ++ i, v) (d' kHashedStorage)) /\ ~ storage_hashed keccak d d'.
Proof. exact first_storage. Qed.
Print Assumptions C53_storage_refuted.
(** Any contract with two slots makes the first run throw. *)
Theorem C53_two_slots_refuted : forall keccak, hash_length keccak -> forall pick, least_first pick -> forall d, wf_db d -> shapes d -> collectable (d kPlainState) -> collectable (d kPlainContractCode) ->
  forall k v w, get_stage_progress d kHashStateKey = Done 0 -> length k = 28%nat -> In (k, v) (d kPlainState) -> In (k, w) (d kPlainState) -> v <> w -> stage_hashstate keccak pick d = Throws.
Proof. exact two_slots. Qed.
Print Assumptions C53_two_slots_refuted.
Example C53_two_slots_case : stage_hashstate pad_hash least_of two_slots_db = Throws.
Proof. exact two_slots_case. Qed.
(** Running the stage twice while only the genesis block is executed throws. *)
Theorem C53_twice_refuted : forall keccak, hash_length keccak -> forall pick, least_first pick -> forall d d' a v, wf_db d -> shapes d -> collectable (d kPlainState) -> collectable (d kPlainContractCode) -> get_stage_progress d kExecutionKey = Done 0 ->
  d kHashedAccounts = [] -> d kHashedStorage = [] -> d kContractCode = [] -> get_stage_progress d kHashStateKey = Done 0 -> stage_hashstate keccak pick d = Done d' -> length a = 20%nat -> In (a, v) (d kPlainState) -> stage_hashstate keccak pick d' = Throws.
Proof. exact run_twice. Qed.
Print Assumptions C53_twice_refuted.

(** A later run brings the hashed accounts and codes of all existing accounts up to date. Missing: deleted accounts and storage. *)
Theorem C53_later_partial : forall keccak, hash_length keccak -> forall d old p n, wf_db d -> shapes d -> p <> 0 -> p + 1 < 2 ^ 64 -> n < 2 ^ 64 -> get_stage_progress d kHashStateKey = Done p -> get_stage_progress d kExecutionKey = Done n -> account_changes d old p ->
  distinct_hashes keccak (fun a => length a = 20%nat /\ (lookup (d kPlainState) a <> None \/ old a <> None)) -> (forall a v, length a = 20%nat -> old a = Some v -> lookup (d kHashedAccounts) (keccak a) = Some v) -> forall pick,
  exists d', stage_hashstate keccak pick d = Done d' /\ wf_db d' /\ get_stage_progress d' kHashStateKey = Done n
    /\ (forall a v, length a = 20%nat -> lookup (d kPlainState) a = Some v -> lookup (d' kHashedAccounts) (keccak a) = Some v)
    /\ (forall a v i h, length a = 20%nat -> lookup (d kPlainState) a = Some v -> extract_incarnation v = Ok i -> i <> 0 -> lookup (d kPlainContractCode) (a ++ be_fixed 8 i) = Some h ->
          (changed_after d p a \/ lookup (d kContractCode) (keccak a ++ be_fixed 8 i) = Some h) -> lookup (d' kContractCode) (keccak a ++ be_fixed 8 i) = Some h)
    /\ (forall a v, length a = 20%nat -> old a = Some v -> lookup (d kPlainState) a = None -> lookup (d' kHashedAccounts) (keccak a) = Some v)
    /\ d' kHashedStorage = d kHashedStorage
    /\ (forall t, t <> kHashedAccounts -> t <> kContractCode -> t <> kSyncStageProgress -> d' t = d t).
Proof. exact later_run. Qed.
Print Assumptions C53_later_partial.
Example C53_later_case : wf_db later_db /\ shapes later_db /\ get_stage_progress later_db kHashStateKey = Done 1 /\ get_stage_progress later_db kExecutionKey = Done 2 /\ account_changes later_db later_old 1 /\ (forall P : bytes -> Prop, (forall a, P a -> length a = 20%nat) -> distinct_hashes pad_hash P)
  /\ (forall a v, length a = 20%nat -> later_old a = Some v -> lookup (later_db kHashedAccounts) (pad_hash a) = Some v) /\ lookup (later_db kPlainState) (addr 9) <> later_old (addr 9) /\ later_old (addr 8) <> None /\ lookup (later_db kPlainState) (addr 8) = None.
Proof. exact later_db_case. Qed.
(** Deleted accounts stay in the hashed table. *)
Theorem C53_deleted_refuted : forall keccak, hash_length keccak -> forall pick d old p n d' a v, wf_db d -> shapes d -> p <> 0 -> p + 1 < 2 ^ 64 -> n < 2 ^ 64 -> get_stage_progress d kHashStateKey = Done p -> get_stage_progress d kExecutionKey = Done n -> account_changes d old p ->
  distinct_hashes keccak (fun a => length a = 20%nat /\ (lookup (d kPlainState) a <> None \/ old a <> None)) -> (forall a v, length a = 20%nat -> old a = Some v -> lookup (d kHashedAccounts) (keccak a) = Some v) ->
  stage_hashstate keccak pick d = Done d' -> length a = 20%nat -> old a = Some v -> lookup (d kPlainState) a = None -> lookup (d' kHashedAccounts) (keccak a) = Some v /\ (distinct_hashes keccak (fun b => length b = 20%nat) -> ~ accounts_hashed keccak d d').
Proof. exact later_deleted. Qed.
Print Assumptions C53_deleted_refuted.
(** Storage that changed is not promoted at all. *)
Theorem C53_later_storage_refuted : forall keccak, hash_length keccak -> forall pick d old p n d', wf_db d -> shapes d -> p <> 0 -> p + 1 < 2 ^ 64 -> n < 2 ^ 64 -> get_stage_progress d kHashStateKey = Done p -> get_stage_progress d kExecutionKey = Done n -> account_changes d old p ->
  distinct_hashes keccak (fun a => length a = 20%nat /\ (lookup (d kPlainState) a <> None \/ old a <> None)) -> (forall a v, length a = 20%nat -> old a = Some v -> lookup (d kHashedAccounts) (keccak a) = Some v) ->
  stage_hashstate keccak pick d = Done d' -> d' kHashedStorage = d kHashedStorage.
Proof. exact later_storage. Qed.
Print Assumptions C53_later_storage_refuted.

(** Unwinding to block n removes exactly the hashed records of the accounts changed after n and touches no slot. *)
Theorem C53_unwind_partial : forall keccak, hash_length keccak -> forall d h n, wf_db d -> shapes d -> n < h -> n + 1 < 2 ^ 64 -> get_stage_progress d kHashStateKey = Done h -> (forall a v, length a = 20%nat -> lookup (d kPlainState) a = Some v -> exists i, extract_incarnation v = Ok i) ->
  exists d', unwind_hashstate keccak d n = Done (Some d') /\ wf_db d' /\ get_stage_progress d' kHashStateKey = Done n
    /\ (forall k v, In (k, v) (d' kHashedAccounts) <-> In (k, v) (d kHashedAccounts) /\ forall a, length a = 20%nat -> changed_after d n a -> keccak a <> k)
    /\ (forall k v, length k <> 72%nat -> In (k, v) (d' kHashedStorage) <-> In (k, v) (d kHashedStorage))
    /\ (forall t, t <> kHashedAccounts -> t <> kHashedStorage -> t <> kContractCode -> t <> kSyncStageProgress -> d' t = d t).
Proof. exact unwind_run. Qed.
Print Assumptions C53_unwind_partial.
(** So an account that existed at block n and changed later is lost instead of being restored. *)
Theorem C53_unwind_refuted : forall keccak, hash_length keccak -> forall d h n a d', wf_db d -> shapes d -> n < h -> n + 1 < 2 ^ 64 -> get_stage_progress d kHashStateKey = Done h -> (forall a v, length a = 20%nat -> lookup (d kPlainState) a = Some v -> exists i, extract_incarnation v = Ok i) ->
  unwind_hashstate keccak d n = Done (Some d') -> length a = 20%nat -> changed_after d n a -> lookup (d' kHashedAccounts) (keccak a) = None.
Proof. exact unwind_loses. Qed.
Print Assumptions C53_unwind_refuted.
Example C53_unwind_case : wf_db later_db /\ shapes later_db /\ get_stage_progress (put later_db kSyncStageProgress kHashStateKey (be_fixed 8 2)) kHashStateKey = Done 2 /\ changed_after later_db 1 (addr 9)
  /\ exists d', unwind_hashstate pad_hash (put later_db kSyncStageProgress kHashStateKey (be_fixed 8 2)) 1 = Done (Some d') /\ d' kHashedAccounts = [].
Proof. exact unwind_db_hashed_case. Qed.
