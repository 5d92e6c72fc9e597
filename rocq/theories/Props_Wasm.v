(** C86: a state set up through the C interface. C87: the objects and chain configurations made through it. *)
From stdpp Require Import gmap.
From Verif Require Import Base RlpSpec TrieLemmas TypesModel TypesSpec TxModel TxSpec BlockModel BlockSpec CodecLemmas ChainModel ChainSpec StateModel StateSpec StateLemmas MemBufModel StateRootSpec StateRootCases MemRootSpec MemRootModel MemRootCases
  WasmModel WasmSpec WasmProofs WasmLemmas.

(** [performed calls]: the state after the calls; [said calls]: for each account and slot, the last thing the calls said. *)
Theorem C86_account : forall calls p, Forall call_ok calls -> length p = 20%nat ->
  state_read_account_new (performed calls) p = accounts (said calls) (be_to_N p).
Proof. exact read_account_said. Qed.
Print Assumptions C86_account.
Theorem C86_code : forall calls h, length h = 32%nat -> state_read_code_new (performed calls) h = code_said calls h.
Proof. exact read_code_said. Qed.
Print Assumptions C86_code.
(** The word comes back as its shortest big-endian form. *)
Theorem C86_storage : forall calls p acc location, Forall call_ok calls -> length p = 20%nat ->
  state_read_storage_new (performed calls) p acc location = BE (slots (said calls) (be_to_N p) (a_incarnation acc) (word location)).
Proof. exact read_storage_said. Qed.
Print Assumptions C86_storage.
Theorem C86_counts : forall calls, Forall call_ok calls ->
  (forall l, lists l (fun a => accounts (said calls) a <> None) -> state_number_of_accounts (performed calls) = length l)
  /\ forall p acc l, length p = 20%nat -> lists l (fun x => slots (said calls) (be_to_N p) (a_incarnation acc) x <> 0) -> state_storage_size (performed calls) p acc = length l.
Proof. exact (fun calls F => conj (fun l => number_said calls l F) (fun p acc l => size_said calls p acc l F)). Qed.
Print Assumptions C86_counts.
(** The root is the state root of what was said, in whatever order the hash maps are visited. *)
Theorem C86_root : forall keccak calls accs storage, hash_32 keccak -> Forall call_ok calls -> no_hash_collision keccak (said calls) ->
  account_order (m_accounts (performed calls)) accs -> slot_order (m_storage (performed calls)) storage ->
  exists root, state_root_hash_new keccak accs storage = Some root /\ is_state_root keccak (said calls) root.
Proof. exact root_said. Qed.
Print Assumptions C86_root.
Example C86_case : Forall call_ok set_up /\ hash_32 flip_hash /\ no_hash_collision flip_hash (said set_up)
  /\ state_read_storage_new (performed set_up) (ptr20 9) contract9 [5] = [7] /\ state_read_storage_new (performed set_up) (ptr20 9) contract9 [4] = []
  /\ state_number_of_accounts (performed set_up) = 2%nat /\ state_storage_size (performed set_up) (ptr20 9) contract9 = 1%nat
  /\ state_read_code_new (performed set_up) kEmptyHash = [91; 0]
  /\ lists [9; 6] (fun a => accounts (said set_up) a <> None) /\ lists [5] (fun x => slots (said set_up) 9 0 x <> 0).
Proof. exact set_up_case. Qed.
Example C86_case_orders : account_order (m_accounts (performed set_up)) (map_to_list (m_accounts (performed set_up))) /\ slot_order (m_storage (performed set_up)) (slots_at (m_storage (performed set_up))).
Proof. exact (conj (account_order_exists _) (slot_order_exists _)). Qed.

(** A state of accounts and codes serves a block as the world it describes. Missing: states with storage, and contracts of
    such a state that write storage (the reference machine lets only contracts do that, and here they count as none). *)
Theorem C86_serves_partial : forall keccak code_of calls room ops vs w' sn,
  Forall call_ok calls -> Forall made calls -> (forall a i l, slots (said calls) a i l = 0) -> codes_given keccak code_of calls -> room < 2 ^ 64 ->
  codes_ok keccak code_of ops -> N.of_nat (length ops) <= room ->
  arun keccak (fun _ => false) (world_said code_of calls, []) ops = Some (vs, (w', sn)) -> answers keccak (mem_reader (performed calls)) ops = vs.
Proof. exact serves. Qed.
Print Assumptions C86_serves_partial.
Example C86_case_serves : Forall call_ok funded /\ Forall made funded /\ (forall a i l, slots (said funded) a i l = 0) /\ codes_given code_hash codes9 funded /\ codes_ok code_hash codes9 paying
  /\ exists y, arun code_hash (fun _ => false) (world_said codes9 funded, []) paying
     = Some ([VUnit; VUnit; VUnit; VUnit; VBytes [91; 0]; VUnit] ++ repeat VUnit 4 ++ [VUnit; VNum 0; VNum 990; VNum 1; VUnit; VNum 0; VNum 7], y).
Proof. exact funded_case. Qed.
(** A contract whose account comes from the interface destroys itself and is then paid in the same block. Its old word is back,
    in that block and in the next; with an account of incarnation 1, which the interface cannot make, it is gone. *)
Theorem C86_destroyed_storage_refuted : old_word contract9 = ([[VBool true; VNum 7]; [VBool true; VNum 7]], [7])
  /\ old_word (mkAccount 1 3 kEmptyHash 1) = ([[VBool true; VNum 0]; [VBool true; VNum 0]], []).
Proof. exact (conj word_is_back word_is_gone). Qed.
Print Assumptions C86_destroyed_storage_refuted.

(** [in_force l n r]: fork [r] is Frontier or its last setting in [l] is not after block [n]. The rules for block [n] are those
    of the latest fork in force. *)
Theorem C87_revision : forall id l n, Forall known_fork l ->
  revision (configured id l) n <= 10 /\ in_force l n (revision (configured id l) n) /\ forall r, r <= 10 -> in_force l n r -> r <= revision (configured id l) n.
Proof. exact configured_revision. Qed.
Print Assumptions C87_revision.
Theorem C87_configuration : forall id l, Forall known_fork l ->
  cfg_chain_id (configured id l) = id /\ cfg_seal_engine (configured id l) = kNoProof /\ length (cfg_fork_blocks (configured id l)) = 10%nat
  /\ (forall r, 1 <= r <= 10 -> activation (configured id l) r = last_setting (fork_at r) l)
  /\ cfg_muir_glacier (configured id l) = last_setting muir_at l /\ cfg_dao_block (configured id l) = last_setting dao_at l.
Proof. exact configured_ok. Qed.
Print Assumptions C87_configuration.
Example C87_case_settings : Forall known_fork settings /\ map (revision (configured 77 settings)) [0; 9; 10; 19; 20; 1000] = [1; 1; 8; 8; 9; 9]
  /\ cfg_muir_glacier (configured 77 settings) = Some 7 /\ cfg_dao_block (configured 77 settings) = Some 3.
Proof. exact settings_case. Qed.
(** An object only from a text that is, to the last byte, one encoding of it (up to the length inside a typed transaction, C05). *)
Theorem C87_transaction : forall t, wf_tx t -> representable t -> small_tx t -> new_transaction (encode_tx t) = Some (no_sender t) /\ forall x, x <> [] -> new_transaction (encode_tx t ++ x) = None.
Proof. exact transaction_found. Qed.
Print Assumptions C87_transaction.
Theorem C87_transaction_exact : forall b t, view b -> new_transaction b = Some t -> tx_form t b.
Proof. exact transaction_exact. Qed.
Print Assumptions C87_transaction_exact.
Theorem C87_block : forall b, wf_block b -> small_item (block_item b) ->
  new_block (RLP (block_item b)) = Some (mkBlock (bk_header b) (map no_sender (bk_transactions b)) (bk_ommers b)) /\ forall x, x <> [] -> new_block (RLP (block_item b) ++ x) = None.
Proof. exact block_found. Qed.
Print Assumptions C87_block.
Theorem C87_block_exact : forall b bk, view b -> new_block b = Some bk ->
  wf_header (bk_header bk) /\ Forall wf_header (bk_ommers bk) /\ exists es, Forall2 tx_form (bk_transactions bk) es
    /\ b = rlp_lst (RLP (header_item (bk_header bk)) ++ rlp_lst (concat es) ++ RLP (Lst (map header_item (bk_ommers bk)))).
Proof. exact block_exact. Qed.
Print Assumptions C87_block_exact.
Example C87_case_objects : wf_tx sample_tx /\ representable sample_tx /\ small_tx sample_tx /\ wf_block block12 /\ small_item (block_item block12)
  /\ new_block (RLP (block_item block12)) = Some block12 /\ new_transaction (encode_tx sample_tx ++ [0]) = None.
Proof. exact objects_case. Qed.
(** The four limbs of a number, least significant first. *)
Theorem C87_uint256 : forall a b c d, u64 a -> u64 b -> u64 c -> u64 d ->
  new_uint256_le a b c d < 2 ^ 256 /\ new_uint256_le a b c d mod 2 ^ 64 = a /\ new_uint256_le a b c d / 2 ^ 64 mod 2 ^ 64 = b
  /\ new_uint256_le a b c d / 2 ^ 128 mod 2 ^ 64 = c /\ new_uint256_le a b c d / 2 ^ 192 = d.
Proof. exact uint256_limbs. Qed.
Print Assumptions C87_uint256.
