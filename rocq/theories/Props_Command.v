(** C97: the commands that run a stage. *)
From stdpp Require Import gmap.
From Verif Require Import Base DbTable DbModel DbSpec DbCases EtlModel EtlSpec EtlLemmas BufferModel UnwindModel HashStateModel HashStateSpec HashStateCases IndexModel IndexSpec IndexWitness CommandModel CommandSpec CommandProofs CommandLemmas.

(** C97: history_index --full makes exactly the index of the recorded changes, whatever index was there. Missing: chains without a change in block 0,
    accounts that outgrow a chunk (refuted in C54), and the other indexes. *)
Theorem C97_history_full_partial : forall pick walk size_in_bytes bm_write bm_read, least_first pick -> some_order walk -> faithful size_in_bytes bm_write bm_read ->
  forall d, wf_db d -> account_change_set (d kPlainAccountChangeSet) ->
    (forall a (b : gset N), length a = 20%nat -> (forall n, n ∈ b -> account_changed d a n) -> size_in_bytes b <= 1950 /\ forall n, n ∈ b -> n < 2 ^ 32) ->
    (exists a, length a = 20%nat /\ account_changed d a 0) ->
    exists d1 d2 m, history_index pick walk size_in_bytes bm_write bm_read true false d = Done ([d1; d2], 0%Z) /\ wf_db d2 /\ get_stage_progress d2 kAccountHistoryKey = Done m
      /\ (exists a, length a = 20%nat /\ account_changed d a m) /\ (forall a n, account_changed d a n -> n <= m)
      /\ (forall a n, length a = 20%nat -> account_indexed bm_read d2 a n <-> account_changed d a n)
      /\ (forall k v, In (k, v) (d2 kAccountHistory) -> exists a, length a = 20%nat /\ k = open_chunk a)
      /\ (forall t, t <> kAccountHistory -> t <> kSyncStageProgress -> d1 t = d t /\ d2 t = d t).
Proof. exact history_full. Qed.
Print Assumptions C97_history_full_partial.
Example C97_history_full_case : match history_index least_of in_place un_size un_write un_read true false stale_index with
  | Done ([d1; d2], s) => s = 0%Z /\ d1 kAccountHistory = [] /\ d2 kAccountHistory = [(open_chunk (addr 3), un_write {[0; 2]}); (open_chunk (addr 9), un_write {[2]})] /\ get_stage_progress d2 kAccountHistoryKey = Done 2
  | _ => False end.
Proof. exact stale_index_case. Qed.
Example C97_history_full_hypotheses : wf_db stale_index /\ account_change_set (stale_index kPlainAccountChangeSet)
  /\ (forall a (b : gset N), length a = 20%nat -> (forall n, n ∈ b -> account_changed stale_index a n) -> un_size b <= 1950 /\ forall n, n ∈ b -> n < 2 ^ 32) /\ account_changed stale_index (addr 3) 0.
Proof. exact stale_index_ok. Qed.

(** hashstate --full: either nothing is committed and the status is not 0, or the hashed accounts and codes are exactly those of the plain state,
    whatever was there. Missing: storage (refuted in C53). *)
Theorem C97_hashstate_full_partial : forall keccak pick, hash_length keccak -> least_first pick -> forall d, wf_db d -> shapes d -> collectable (d kPlainState) -> collectable (d kPlainContractCode) ->
  forall n l s, n < 2 ^ 64 -> get_stage_progress d kExecutionKey = Done n -> hashstate keccak pick true false false d = Done (l, s) ->
  (l = [] /\ s = (-5)%Z) \/ exists d', l = [d'] /\ s = 0%Z /\ accounts_hashed keccak d d' /\ codes_hashed keccak d d' /\ get_stage_progress d' kHashStateKey = Done n /\ wf_db d'
    /\ (forall k v, In (k, v) (d' kHashedStorage) -> length k = 72%nat) /\ (forall t, t <> kHashedAccounts -> t <> kHashedStorage -> t <> kContractCode -> t <> kSyncStageProgress -> d' t = d t).
Proof. exact hashstate_full. Qed.
Print Assumptions C97_hashstate_full_partial.
Theorem C97_hashstate_full_completes : forall keccak pick, hash_length keccak -> least_first pick -> forall d, wf_db d -> shapes d -> collectable (d kPlainState) -> collectable (d kPlainContractCode) ->
  forall n, get_stage_progress d kExecutionKey = Done n ->
  distinct_hashes keccak (fun a => length a = 20%nat /\ ((exists v, In (a, v) (d kPlainState)) \/ exists i v, In (a ++ i, v) (d kPlainContractCode))) ->
  (forall a v w, length a = 20%nat -> In (a, v) (d kPlainState) -> In (a, w) (d kPlainState) -> v = w) ->
  (forall k v k' v', length k = 28%nat -> length k' = 28%nat -> In (k, v) (d kPlainState) -> In (k', v') (d kPlainState) -> skipn 20 k = skipn 20 k' -> firstn 20 (keccak (firstn 20 k)) = firstn 20 (keccak (firstn 20 k')) -> k = k' /\ v = v') ->
  exists d', hashstate keccak pick true false false d = Done ([d'], 0%Z).
Proof. exact hashstate_full_completes. Qed.
Print Assumptions C97_hashstate_full_completes.
Example C97_hashstate_full_case : match hashstate pad_hash least_of true false false stale_hashed with
  | Done ([d], s) => s = 0%Z /\ map fst (d kHashedAccounts) = [pad_hash (addr 3); pad_hash (addr 9)] /\ get_stage_progress d kHashStateKey = Done 2
  | _ => False end.
Proof. exact stale_hashed_case. Qed.
Example C97_hashstate_full_hypotheses : wf_db stale_hashed /\ shapes stale_hashed /\ collectable (stale_hashed kPlainState) /\ collectable (stale_hashed kPlainContractCode) /\ get_stage_progress stale_hashed kExecutionKey = Done 2.
Proof. exact stale_hashed_ok. Qed.
(** hashstate --reset, whatever else is asked for. *)
Theorem C97_hashstate_reset : forall keccak pick full incrementally d, wf_db d -> exists d', hashstate keccak pick full incrementally true d = Done ([d'], 0%Z) /\ cleared hashed_tables kHashStateKey d d'.
Proof. exact hashstate_reset. Qed.
Print Assumptions C97_hashstate_reset.
(** Wherever a command with --full fails: the first commit has an empty index and progress 0, so that a run without --full begins anew; the status
    is 0 exactly if there is a second commit. *)
Theorem C97_commits : forall keccak pick walk size_in_bytes bm_write bm_read cbor_bytes d l s, wf_db d ->
  (tx_lookup keccak pick true d = Done (l, s) -> exists d1 rest, l = d1 :: rest /\ cleared [kTxLookup] kTxLookupKey d d1 /\ ((rest = [] /\ s <> 0%Z) \/ (exists d2, rest = [d2] /\ s = 0%Z)))
  /\ (log_index pick walk size_in_bytes bm_write bm_read cbor_bytes true d = Done (l, s) -> exists d1 rest, l = d1 :: rest /\ cleared [kLogTopicIndex; kLogAddressIndex] kLogIndexKey d d1 /\ ((rest = [] /\ s <> 0%Z) \/ (exists d2, rest = [d2] /\ s = 0%Z)))
  /\ (history_index pick walk size_in_bytes bm_write bm_read true false d = Done (l, s) -> exists d1 rest, l = d1 :: rest /\ cleared [kAccountHistory] kAccountHistoryKey d d1 /\ ((rest = [] /\ s <> 0%Z) \/ (exists d2, rest = [d2] /\ s = 0%Z)))
  /\ (history_index pick walk size_in_bytes bm_write bm_read true true d = Done (l, s) -> exists d1 rest, l = d1 :: rest /\ cleared [kStorageHistory] kStorageHistoryIndexKey d d1 /\ ((rest = [] /\ s <> 0%Z) \/ (exists d2, rest = [d2] /\ s = 0%Z))).
Proof. exact commits_full. Qed.
Print Assumptions C97_commits.

(** The full property is about every index. On every database written by execution, --full only deletes the lookup of transactions, the log index and
    the storage index, and says it succeeded. *)
Theorem C97_full_refuted :
  (forall keccak pick walk size_in_bytes bm_write bm_read cbor_bytes, some_order walk ->
    forall d, wf_db d -> (forall k v, In (k, v) (d kBlockBodies) -> length k = 40%nat) -> (forall k v, In (k, v) (d kLogs) -> length k = 12%nat) -> (forall k v, In (k, v) (d kPlainStorageChangeSet) -> length k = 36%nat) ->
    (exists d1 d2, tx_lookup keccak pick true d = Done ([d1; d2], 0%Z) /\ d1 kTxLookup = [] /\ d2 kTxLookup = [])
    /\ (exists d1 d2, log_index pick walk size_in_bytes bm_write bm_read cbor_bytes true d = Done ([d1; d2], 0%Z) /\ d2 kLogTopicIndex = [] /\ d2 kLogAddressIndex = [])
    /\ (exists d1 d2, history_index pick walk size_in_bytes bm_write bm_read true true d = Done ([d1; d2], 0%Z) /\ d2 kStorageHistory = []))
  /\ wf_db indexed_db /\ (forall k v, In (k, v) (indexed_db kBlockBodies) -> length k = 40%nat) /\ (forall k v, In (k, v) (indexed_db kLogs) -> length k = 12%nat) /\ (forall k v, In (k, v) (indexed_db kPlainStorageChangeSet) -> length k = 36%nat)
  /\ indexed_db kTxLookup <> [] /\ indexed_db kLogTopicIndex <> [] /\ indexed_db kStorageHistory <> [].
Proof. exact full_nothing_lemma. Qed.
Print Assumptions C97_full_refuted.
(** hashstate --full --increment loses every account that did not change after the genesis block, and records the progress as done. *)
Theorem C97_increment_refuted :
  (forall keccak pick d n, wf_db d -> n < 2 ^ 64 -> get_stage_progress d kExecutionKey = Done n -> d kPlainAccountChangeSet = [] -> d kPlainStorageChangeSet = [] ->
    exists d', hashstate keccak pick true true false d = Done ([d'], 0%Z) /\ d' kHashedAccounts = [] /\ d' kHashedStorage = [] /\ d' kContractCode = [] /\ get_stage_progress d' kHashStateKey = Done n)
  /\ wf_db stale_hashed /\ stale_hashed kPlainState <> [] /\ stale_hashed kPlainAccountChangeSet = [] /\ stale_hashed kPlainStorageChangeSet = [] /\ get_stage_progress stale_hashed kExecutionKey = Done 2.
Proof. exact increment_lemma. Qed.
Print Assumptions C97_increment_refuted.
(** A stage that fails because of a hash of the wrong length ends with status 0. *)
Theorem C97_status_refuted :
  (forall d p h, wf_db d -> p < 2 ^ 64 -> get_stage_progress d kBlockHashesKey = Done p -> lookup (d kCanonicalHashes) (be_fixed 8 ((p + 1) mod 2 ^ 64)) = Some h -> length h <> 32%nat -> blockhashes d = Done ([], 0%Z))
  /\ stage_blockhashes short_hash_db = Done (kStageBadBlockHash, short_hash_db) /\ blockhashes short_hash_db = Done ([], 0%Z).
Proof. exact bad_hash_lemma. Qed.
Print Assumptions C97_status_refuted.
