(** Concrete cases for the commands that run a stage. *)
From stdpp Require Import gmap.
From Verif Require Import Base BaseFacts DbTable DbModel DbSpec DbProofs DbCases EtlModel EtlSpec EtlLemmas BufferModel BufferCases UnwindModel HashStateModel HashStateSpec HashStateProofs HashStateCases IndexModel IndexSpec IndexLemmas IndexCases IndexWitness CommandModel CommandSpec CommandProofs.

(** An index with wrong records and a progress beyond the chain. *)
Definition stale_index : database := put (put changes_db kAccountHistory (open_chunk (addr 5)) [1; 2; 3]) kSyncStageProgress kAccountHistoryKey (be_fixed 8 77).
Lemma stale_index_case : match history_index least_of in_place un_size un_write un_read true false stale_index with
  | Done ([d1; d2], s) => s = 0%Z /\ d1 kAccountHistory = [] /\ d2 kAccountHistory = [(open_chunk (addr 3), un_write {[0; 2]}); (open_chunk (addr 9), un_write {[2]})] /\ get_stage_progress d2 kAccountHistoryKey = Done 2
  | _ => False end.
Proof. vm_compute. repeat split; reflexivity. Qed.
Lemma stale_index_ok : wf_db stale_index /\ account_change_set (stale_index kPlainAccountChangeSet)
  /\ (forall a (b : gset N), length a = 20%nat -> (forall n, n ∈ b -> account_changed stale_index a n) -> un_size b <= 1950 /\ forall n, n ∈ b -> n < 2 ^ 32) /\ account_changed stale_index (addr 3) 0.
Proof.
  destruct changes_case as (_ & _ & A & B & _ & C & _). split; [repeat apply put_wf; apply empty_wf|]. split; [exact A|]. split; [|exact C].
  intros a b La H. apply (B a b La). intros n I. left. exact (H n I).
Qed.
(** Hashed tables with records of accounts that are not there. *)
Definition stale_hashed : database := put (put (put first_db kHashedAccounts (pad_hash (addr 8)) [1]) kHashedStorage (repeat 7 72) [2]) kSyncStageProgress kHashStateKey (be_fixed 8 1).
Lemma stale_hashed_case : match hashstate pad_hash least_of true false false stale_hashed with
  | Done ([d], s) => s = 0%Z /\ map fst (d kHashedAccounts) = [pad_hash (addr 3); pad_hash (addr 9)] /\ get_stage_progress d kHashStateKey = Done 2
  | _ => False end.
Proof. vm_compute. repeat split; reflexivity. Qed.
Lemma stale_hashed_ok : wf_db stale_hashed /\ shapes stale_hashed /\ collectable (stale_hashed kPlainState) /\ collectable (stale_hashed kPlainContractCode) /\ get_stage_progress stale_hashed kExecutionKey = Done 2.
Proof.
  destruct first_db_case as (_ & Sh & C1 & C2 & _). split; [repeat apply put_wf; apply empty_wf|]. split; [|split; [exact C1|split; [exact C2|vm_compute; reflexivity]]].
  split; [apply (sh_state _ Sh)|apply (sh_codes _ Sh)|apply (sh_acc_changes _ Sh)|apply (sh_st_changes _ Sh)].
Qed.
Lemma increment_lemma :
  (forall keccak pick d n, wf_db d -> n < 2 ^ 64 -> get_stage_progress d kExecutionKey = Done n -> d kPlainAccountChangeSet = [] -> d kPlainStorageChangeSet = [] ->
    exists d', hashstate keccak pick true true false d = Done ([d'], 0%Z) /\ d' kHashedAccounts = [] /\ d' kHashedStorage = [] /\ d' kContractCode = [] /\ get_stage_progress d' kHashStateKey = Done n)
  /\ wf_db stale_hashed /\ stale_hashed kPlainState <> [] /\ stale_hashed kPlainAccountChangeSet = [] /\ stale_hashed kPlainStorageChangeSet = [] /\ get_stage_progress stale_hashed kExecutionKey = Done 2.
Proof.
  split; [intros; now apply hashstate_increment|]. split; [apply stale_hashed_ok|]. split; [vm_compute; discriminate|]. split; [reflexivity|]. split; [reflexivity|]. vm_compute. reflexivity.
Qed.
Definition indexed_db : database := put (put (put keyed_db kTxLookup (word 9) [1]) kLogTopicIndex (word 9 ++ be_fixed 4 (2 ^ 32 - 1)) [1]) kStorageHistory (word 9) [1].
Lemma full_nothing_lemma :
  (forall keccak pick walk size_in_bytes bm_write bm_read cbor_bytes, some_order walk ->
    forall d, wf_db d -> (forall k v, In (k, v) (d kBlockBodies) -> length k = 40%nat) -> (forall k v, In (k, v) (d kLogs) -> length k = 12%nat) -> (forall k v, In (k, v) (d kPlainStorageChangeSet) -> length k = 36%nat) ->
    (exists d1 d2, tx_lookup keccak pick true d = Done ([d1; d2], 0%Z) /\ d1 kTxLookup = [] /\ d2 kTxLookup = [])
    /\ (exists d1 d2, log_index pick walk size_in_bytes bm_write bm_read cbor_bytes true d = Done ([d1; d2], 0%Z) /\ d2 kLogTopicIndex = [] /\ d2 kLogAddressIndex = [])
    /\ (exists d1 d2, history_index pick walk size_in_bytes bm_write bm_read true true d = Done ([d1; d2], 0%Z) /\ d2 kStorageHistory = []))
  /\ wf_db indexed_db /\ (forall k v, In (k, v) (indexed_db kBlockBodies) -> length k = 40%nat) /\ (forall k v, In (k, v) (indexed_db kLogs) -> length k = 12%nat) /\ (forall k v, In (k, v) (indexed_db kPlainStorageChangeSet) -> length k = 36%nat)
  /\ indexed_db kTxLookup <> [] /\ indexed_db kLogTopicIndex <> [] /\ indexed_db kStorageHistory <> [].
Proof.
  split; [exact full_nothing|]. destruct keyed_case as (W & A & B & C & _). split; [repeat apply put_wf; apply empty_wf|]. split; [exact C|]. split; [exact B|]. split; [exact A|]. split; [vm_compute; discriminate|]. split; vm_compute; discriminate.
Qed.
Definition short_hash_db : database := put empty_db kCanonicalHashes (block_key 1) [1; 2; 3].
Lemma bad_hash_lemma :
  (forall d p h, wf_db d -> p < 2 ^ 64 -> get_stage_progress d kBlockHashesKey = Done p -> lookup (d kCanonicalHashes) (be_fixed 8 ((p + 1) mod 2 ^ 64)) = Some h -> length h <> 32%nat -> blockhashes d = Done ([], 0%Z))
  /\ stage_blockhashes short_hash_db = Done (kStageBadBlockHash, short_hash_db) /\ blockhashes short_hash_db = Done ([], 0%Z).
Proof. split; [exact bad_hash_silent|]. split; [|vm_compute; reflexivity]. vm_compute. reflexivity. Qed.
