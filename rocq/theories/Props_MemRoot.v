(** C68: the state roots computed by MemoryBuffer and by db::Buffer. *)
From stdpp Require Import gmap.
From Verif Require Import Base RlpSpec TypesModel TrieSpec TrieLemmas StateModel StateSpec StateLemmas MemBufModel MemBufSpec BufferModel BufferCases StateRootSpec StateRootCases MemRootSpec MemRootModel MemRootProofs MemRootLemmas MemRootCases.

(** The root of a memory buffer is the state root of its content, whatever the order in which the hash maps are visited. *)
Theorem C68_memory : forall keccak, hash_32 keccak -> forall m accs storage, in_range (mem_state m) -> no_hash_collision keccak (mem_state m) -> (forall k, m_storage m !! k <> Some 0) ->
  account_order (m_accounts m) accs -> slot_order (m_storage m) storage ->
  exists root, mem_root keccak accs storage = Some root /\ is_state_root keccak (mem_state m) root.
Proof. exact memory_root. Qed.
Print Assumptions C68_memory.
Example C68_case : in_range (mem_state root_mem) /\ no_hash_collision flip_hash (mem_state root_mem) /\ (forall k, m_storage root_mem !! k <> Some 0) /\ accounts (mem_state root_mem) 3 = Some c_account /\ slots (mem_state root_mem) 3 1 17 = 40.
Proof. exact root_mem_case. Qed.
Example C68_case_orders : (forall m : gmap N account, account_order m (map_to_list m)) /\ forall st, slot_order st (slots_at st).
Proof. exact (conj account_order_exists slot_order_exists). Qed.

(** After any blocks executed over the buffer and written back to it, the root is that of the world of the reference machine. Missing:
    as for C27_blocks_partial, some histories. *)
Theorem C68_blocks_partial : forall keccak, hash_32 keccak -> forall code_of room m past w blocks vss past2 w2 vss' m2 accs storage,
  mem_ok keccak code_of room m past w -> codes_ok keccak code_of (concat (map snd blocks)) -> total_ops blocks <= room -> replay keccak past w blocks vss past2 w2 -> mreplay keccak m blocks vss' m2 ->
  world_range w2 -> no_world_collision keccak w2 -> account_order (m_accounts m2) accs -> slot_order (m_storage m2) storage ->
  exists root, mem_root keccak accs storage = Some root /\ is_world_root keccak w2 root.
Proof. exact blocks_root. Qed.
Print Assumptions C68_blocks_partial.
Example C68_case_blocks : hash_32 code_hash /\ mem_ok code_hash (fun _ => []) 1000 mem_empty (past9 false) (world9 None 0 false false) /\ codes_ok code_hash (fun _ => []) (concat (map snd [(1, b_create)])) /\ total_ops [(1, b_create)] <= 1000
  /\ (exists past w, replay code_hash (past9 false) (world9 None 0 false false) [(1, b_create)] [repeat VUnit 7] past w /\ w_acct w 9 = Some contract9 /\ w_current w 9 5 = 7 /\ world_range w /\ no_world_collision code_hash w)
  /\ exists m, mreplay code_hash mem_empty [(1, b_create)] [repeat VUnit 7] m.
Proof. exact block_case. Qed.

(** The root of a database buffer is the state root of its content (without the database below it), if no slot is kept with the value
    zero. Missing: buffers with such slots, refuted below. *)
Theorem C68_buffer_partial : forall keccak, hash_32 keccak -> forall b accs storage, in_range (buf_state b) -> no_hash_collision keccak (buf_state b) -> (forall k, b_storage b !! k <> Some 0) ->
  account_order (b_accounts b) accs -> slot_order (b_storage b) storage ->
  exists root, buf_root keccak accs storage = Some root /\ is_state_root keccak (buf_state b) root.
Proof. exact buffer_root. Qed.
Print Assumptions C68_buffer_partial.

(** A slot that was set to zero is an entry of the storage trie of the buffer, which is not the storage trie of the state. *)
Theorem C68_zero_slot_refuted : forall keccak, hash_32 keccak -> forall b storage a i l, slot_order (b_storage b) storage -> b_storage b !! (a, i, l) = Some 0 ->
  (forall l v, b_storage b !! (a, i, l) = Some v -> l < 2 ^ 256 /\ v < 2 ^ 256) ->
  (forall l l' v v', b_storage b !! (a, i, l) = Some v -> b_storage b !! (a, i, l') = Some v' -> keccak (be_fixed 32 l) = keccak (be_fixed 32 l') -> l = l') ->
  exists t, account_storage_root keccak (storage a i) = Some (trie_root keccak t) /\ canonical t /\ get t (nibbles (keccak (be_fixed 32 l))) = Some [0x80]
  /\ forall o, is_trie (storage_content keccak (buf_state b) a i) o -> o <> Some t.
Proof. exact zero_slot. Qed.
Print Assumptions C68_zero_slot_refuted.
Example C68_case_zero : b_storage zeroed !! (3, 1, 1) = Some 0 /\ (forall l v, b_storage zeroed !! (3, 1, l) = Some v -> l < 2 ^ 256 /\ v < 2 ^ 256)
  /\ (forall l l' v v', b_storage zeroed !! (3, 1, l) = Some v -> b_storage zeroed !! (3, 1, l') = Some v' -> flip_hash (be_fixed 32 l) = flip_hash (be_fixed 32 l') -> l = l').
Proof. exact zeroed_case. Qed.
(** Clearing any slot leaves such an entry. *)
Example C68_case_cleared : forall b a i l initial, initial <> 0 -> b_storage (BufferModel.update_storage b a i l initial 0) !! (a, i, l) = Some 0.
Proof. exact cleared. Qed.
