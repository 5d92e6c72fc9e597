(** C54: the indexing stages. *)
From stdpp Require Import gmap.
From Verif Require Import Base DbTable DbModel DbSpec EtlModel EtlSpec EtlLemmas BufferModel IndexModel IndexSpec IndexLemmas IndexCases IndexWitness.

(** Accounts: when the change set has a record for the block that was indexed last, and no account outgrows a chunk, then after
    the stage the open chunk of every address names what it named before and the changing blocks from there on; nothing else is
    touched; the progress is the last block with a change. *)
Theorem C54_account_history_partial : forall pick walk size_in_bytes bm_write bm_read, least_first pick -> some_order walk -> faithful size_in_bytes bm_write bm_read ->
  forall d p, wf_db d -> p < 2 ^ 64 -> get_stage_progress d kAccountHistoryKey = Done p ->
    account_change_set (d kPlainAccountChangeSet) -> one_chunk size_in_bytes bm_read d -> (p = 0 -> d kAccountHistory = []) ->
    (exists a, length a = 20%nat /\ account_changed d a p) ->
    exists d' m, stage_account_history pick walk size_in_bytes bm_write bm_read d = Done (kStageSuccess, d') /\ wf_db d' /\ get_stage_progress d' kAccountHistoryKey = Done m
      /\ (exists a, length a = 20%nat /\ account_changed d a m) /\ (forall a n, account_changed d a n -> n <= m)
      /\ (forall a n, length a = 20%nat -> account_indexed bm_read d' a n <-> account_indexed bm_read d a n \/ (p <= n /\ account_changed d a n))
      /\ (forall k v, (forall a, length a = 20%nat -> k <> open_chunk a) -> In (k, v) (d' kAccountHistory) <-> In (k, v) (d kAccountHistory))
      /\ (forall t, t <> kAccountHistory -> t <> kSyncStageProgress -> d' t = d t).
Proof. exact account_history_stage. Qed.
Print Assumptions C54_account_history_partial.
Example C54_account_history_case : wf_db changes_db /\ get_stage_progress changes_db kAccountHistoryKey = Done 0 /\ account_change_set (changes_db kPlainAccountChangeSet) /\ one_chunk un_size un_read changes_db /\ changes_db kAccountHistory = []
  /\ account_changed changes_db (addr 3) 0 /\ faithful un_size un_write un_read /\ some_order in_place /\ least_first least_of.
Proof. exact changes_case. Qed.
Example C54_account_history_value : match stage_account_history least_of in_place un_size un_write un_read changes_db with
  | Done (r, d) => r = kStageSuccess /\ d kAccountHistory = [(open_chunk (addr 3), un_write {[0; 2]}); (open_chunk (addr 9), un_write {[2]})]
  | _ => False end.
Proof. exact changes_run. Qed.

(** Without a record for exactly that block nothing is indexed, for ever: on a chain whose first change is in block 1 the index
    stays empty. *)
Theorem C54_account_history_refuted : forall pick walk size_in_bytes bm_write bm_read, some_order walk ->
  forall d p, wf_db d -> get_stage_progress d kAccountHistoryKey = Done p -> (forall v, ~ In (be_fixed 8 p, v) (d kPlainAccountChangeSet)) ->
    stage_account_history pick walk size_in_bytes bm_write bm_read d = Done (kStageSuccess, d).
Proof. exact account_history_gap. Qed.
Print Assumptions C54_account_history_refuted.
Example C54_account_history_gap_case : wf_db from_one_db /\ account_changed from_one_db (addr 3) 1
  /\ (forall pick walk size_in_bytes bm_write bm_read, some_order walk -> stage_account_history pick walk size_in_bytes bm_write bm_read from_one_db = Done (kStageSuccess, from_one_db)) /\ from_one_db kAccountHistory = [].
Proof. exact from_one. Qed.
(** When the bitmap of an account outgrows a chunk, the last block that changed it is not indexed, though the progress says so. *)
Theorem C54_account_history_large_refuted : forall pick walk size_in_bytes bm_write bm_read, least_first pick -> some_order walk -> faithful size_in_bytes bm_write bm_read ->
  forall d a (B : gset N), wf_db d -> get_stage_progress d kAccountHistoryKey = Done 0 -> d kAccountHistory = [] ->
    length a = 20%nat -> (forall k v, In (k, v) (d kPlainAccountChangeSet) -> exists n s, n < 2 ^ 32 /\ k = be_fixed 8 n /\ v = a ++ s) -> 8 * N.of_nat (length (d kPlainAccountChangeSet)) < 256 * 2 ^ 20 - 64 ->
    (forall n, n ∈ B <-> account_changed d a n) -> account_changed d a 0 -> (exists n, n <> 0 /\ account_changed d a n) -> 1950 < size_in_bytes B -> size_in_bytes B < 2 ^ 31 ->
    exists d' m, stage_account_history pick walk size_in_bytes bm_write bm_read d = Done (kStageSuccess, d') /\ get_stage_progress d' kAccountHistoryKey = Done m
      /\ account_changed d a m /\ forall n, ~ account_indexed bm_read d' a m /\ (n < m -> account_indexed bm_read d' a n <-> account_changed d a n).
Proof. exact account_history_large. Qed.
Print Assumptions C54_account_history_large_refuted.
Example C54_account_history_large_case : wf_db wide_db /\ (forall k v, In (k, v) (wide_db kPlainAccountChangeSet) -> exists n s, n < 2 ^ 32 /\ k = be_fixed 8 n /\ v = addr 3 ++ s)
  /\ (forall n, n ∈ ({[0; 3000]} : gset N) <-> account_changed wide_db (addr 3) n) /\ 1950 < un_size {[0; 3000]} /\ un_size {[0; 3000]} < 2 ^ 31.
Proof. exact wide_case. Qed.
(** After a run that ended with block 0 the stage takes the index for empty, and throws. *)
Theorem C54_account_history_zero_refuted : wf_db zero_db /\ account_change_set (zero_db kPlainAccountChangeSet) /\ stage_account_history least_of in_place un_size un_write un_read zero_db = Throws.
Proof. exact zero_throws. Qed.
Print Assumptions C54_account_history_zero_refuted.

(** Storage: the change set has keys of 36 bytes; nothing is ever indexed. *)
Theorem C54_storage_history_refuted : forall pick walk size_in_bytes bm_write bm_read, some_order walk ->
  forall d p, wf_db d -> (forall k v, In (k, v) (d kPlainStorageChangeSet) -> length k = 36%nat) -> get_stage_progress d kStorageHistoryIndexKey = Done p ->
    stage_storage_history pick walk size_in_bytes bm_write bm_read d = Done (kStageSuccess, d).
Proof. exact storage_history_nothing. Qed.
Print Assumptions C54_storage_history_refuted.
(** Logs: the table has keys of 12 bytes; nothing is ever indexed, and the progress goes back to 0. *)
Theorem C54_log_index_refuted : forall pick walk size_in_bytes bm_write bm_read, some_order walk ->
  forall cbor_bytes d p, wf_db d -> (forall k v, In (k, v) (d kLogs) -> length k = 12%nat) -> get_stage_progress d kLogIndexKey = Done p ->
    exists d', stage_log_index pick walk size_in_bytes bm_write bm_read cbor_bytes d = Done (kStageSuccess, d') /\ get_stage_progress d' kLogIndexKey = Done 0 /\ (forall t, t <> kSyncStageProgress -> d' t = d t).
Proof. exact log_index_nothing. Qed.
Print Assumptions C54_log_index_refuted.
(** Transactions: the table of bodies has keys of 40 bytes; nothing is ever indexed. *)
Theorem C54_tx_lookup_refuted : forall keccak pick d p, wf_db d -> (forall k v, In (k, v) (d kBlockBodies) -> length k = 40%nat) -> get_stage_progress d kTxLookupKey = Done p ->
  stage_tx_lookup keccak pick d = Done (kStageSuccess, d).
Proof. exact tx_lookup_nothing. Qed.
Print Assumptions C54_tx_lookup_refuted.
(** Block hashes: nothing is ever indexed; as soon as there is a next block the stage fails. *)
Theorem C54_blockhashes_refuted : forall d p, wf_db d -> p < 2 ^ 64 -> get_stage_progress d kBlockHashesKey = Done p ->
  stage_blockhashes d = Done (match lookup (d kCanonicalHashes) (be_fixed 8 ((p + 1) mod 2 ^ 64)) with
                              | None => kStageSuccess
                              | Some h => if Nat.eqb (length h) 32 then kStageBadChainSequence else kStageBadBlockHash
                              end, d).
Proof. exact block_hashes_nothing. Qed.
Print Assumptions C54_blockhashes_refuted.
Example C54_keyed_case : wf_db keyed_db /\ (forall k v, In (k, v) (keyed_db kPlainStorageChangeSet) -> length k = 36%nat) /\ (forall k v, In (k, v) (keyed_db kLogs) -> length k = 12%nat) /\ (forall k v, In (k, v) (keyed_db kBlockBodies) -> length k = 40%nat)
  /\ keyed_db kPlainStorageChangeSet <> [] /\ keyed_db kLogs <> [] /\ keyed_db kBlockBodies <> [] /\ lookup (keyed_db kCanonicalHashes) (be_fixed 8 1) = Some (word 7).
Proof. exact keyed_case. Qed.
