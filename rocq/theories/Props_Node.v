(** C30 over MemoryBuffer, with blocks executed by the processor. *)
From stdpp Require Import gmap.
From Coq Require Import ZArith.
From Verif Require Import Base RlpModel TxModel BlockModel TypesModel ChainModel TrieLemmas StateModel StateSpec MemBufModel MemBufSpec MemRootModel MemRootSpec EvmModel EvmCases ProcessorModel RunSpec BlockchainModel BlockchainSpec ChainBufferModel ChainBufferSpec NodeModel NodeSpec NodeLemmas NodeCases.

(** C30: after any sequence of insertions into a Blockchain over a MemoryBuffer, whatever the orders in which the hash maps were visited, the canonical chain is a valid chain of
    accepted blocks, the buffer (changed in place, unwound by the changes recorded in it) holds the world that the reference machine computes by executing this chain from the
    genesis world, and no accepted block has a greater total difficulty. Missing: a block of the canonical chain must not be submitted again. *)
Theorem C30_node_heaviest_partial keccak code_of pre_gas pre_run block_hash interp fuel receipts_root config hash pre o genesis past0 w0 m0 root room calls h c m i :
  b_number genesis = 0 -> hash_32 keccak -> orders_ok o -> mem_ok keccak code_of room m0 past0 w0 -> coded w0 ->
  no_collision hash (involved genesis h) -> no_overflow genesis h -> N.of_nat (length h * length h) * calls <= room ->
  executable keccak code_of pre_gas pre_run block_hash interp fuel receipts_root config hash genesis (past0, w0) (involved genesis h) calls ->
  rooted keccak pre_gas pre_run block_hash interp fuel receipts_root config hash genesis (past0, w0) root (involved genesis h) ->
  n_history hash pre (mem_run keccak pre_gas pre_run block_hash interp fuel receipts_root config o) (mem_undo o) (mem_state_root keccak o) genesis (m0, O) h (c, (m, i)) ->
  exists cl d past w,
    valid_chain hash (reference_exec keccak pre_gas pre_run block_hash interp fuel receipts_root config) genesis (past0, w0) cl (past, w) d
    /\ c_canonical c = rev (map hash cl) /\ mem_ok keccak code_of 0 m past w
    /\ (forall b, In b cl -> accepted genesis h b)
    /\ (forall b, accepted genesis h b -> exists t s d',
          valid_chain hash (reference_exec keccak pre_gas pre_run block_hash interp fuel receipts_root config) genesis (past0, w0) (b :: t) s d' /\ d' <= d).
Proof. intros H1 H2 H3 H4 H5. exact (node_heaviest keccak code_of pre_gas pre_run block_hash interp fuel receipts_root config hash pre o genesis past0 w0 m0 root room calls H1 H2 H3 H4 H5 h c m i). Qed.
Print Assumptions C30_node_heaviest_partial.

(** C30: every insertion returns; a refused one leaves the canonical chain and the world in the buffer as they were; an accepted one reorganises exactly when its chain is strictly
    heavier; what is accepted passed pre-validation, lies on accepted blocks, and has the state root of the yellow paper if that is checked; a valid block on an accepted parent is
    accepted. *)
Theorem C30_node_insertion_partial keccak code_of pre_gas pre_run block_hash interp fuel receipts_root config hash pre o genesis past0 w0 m0 root room calls h c m i b check :
  b_number genesis = 0 -> hash_32 keccak -> orders_ok o -> mem_ok keccak code_of room m0 past0 w0 -> coded w0 ->
  no_collision hash (b :: involved genesis h) -> no_overflow genesis (h ++ [mkCall b check true]) -> N.of_nat ((length h + 1) * (length h + 1)) * calls <= room ->
  executable keccak code_of pre_gas pre_run block_hash interp fuel receipts_root config hash genesis (past0, w0) (b :: involved genesis h) calls ->
  rooted keccak pre_gas pre_run block_hash interp fuel receipts_root config hash genesis (past0, w0) root (b :: involved genesis h) ->
  n_history hash pre (mem_run keccak pre_gas pre_run block_hash interp fuel receipts_root config o) (mem_undo o) (mem_state_root keccak o) genesis (m0, O) h (c, (m, i)) ->
  submittable hash c b ->
  let valid := valid_chain hash (reference_exec keccak pre_gas pre_run block_hash interp fuel receipts_root config) genesis (past0, w0) in
  exists ok c' m' i' cl d past w,
    node_insert_block keccak pre_gas pre_run block_hash interp fuel receipts_root config hash pre o (c, (m, i)) b check = Done (ok, (c', (m', i')))
    /\ valid cl (past, w) d /\ c_canonical c = rev (map hash cl) /\ mem_ok keccak code_of 0 m past w
    /\ (ok = false -> c_canonical c' = c_canonical c /\ mem_ok keccak code_of 0 m' past w)
    /\ (ok = true -> pre (c_blocks c) b = true /\ exists t past' w' db, valid (b :: t) (past', w') db /\ (forall x, In x t -> accepted genesis h x) /\ (check = true -> is_world_root keccak w' (b_root b))
          /\ if d <? db then c_canonical c' = rev (map hash (b :: t)) /\ mem_ok keccak code_of 0 m' past' w'
             else c_canonical c' = c_canonical c /\ mem_ok keccak code_of 0 m' past w)
    /\ (forall p t s dp s', (forall x, In x (p :: t) -> accepted genesis h x) -> valid (p :: t) s dp ->
          b_number b = b_number p + 1 -> b_parent b = hash p -> reference_exec keccak pre_gas pre_run block_hash interp fuel receipts_root config s b = Some s' ->
          pre (c_blocks c) b = true -> ~ refused h b ->
          (check = true -> forall v x z s1 d1, b :: p :: t = v ++ x :: z -> z <> [] -> valid (x :: z) s1 d1 -> root s1 = b_root x) ->
          ok = true).
Proof. intros H1 H2 H3 H4 H5. exact (node_insertion keccak code_of pre_gas pre_run block_hash interp fuel receipts_root config hash pre o genesis past0 w0 m0 root room calls H1 H2 H3 H4 H5 h c m i b check). Qed.
Print Assumptions C30_node_insertion_partial.

(** a contract called and another created: in one block; in two blocks on the side, which become canonical; then two blocks that are refused *)
Example C30_node_case : hash_32 y_keccak /\ orders_ok y_orders /\ mem_ok y_keccak y_code_of 1000000 y_mem y_past y_world /\ coded y_world
  /\ no_collision y_hash (involved y_genesis y_h) /\ no_overflow y_genesis y_h /\ N.of_nat (length y_h * length y_h) * 100 <= 1000000
  /\ executable y_keccak y_code_of (fun _ _ _ => 100) (fun _ i => Some i) (fun _ _ => zeros 32) e_interp 1025 (fun _ => [1; 2]) y_cfg y_hash y_genesis (y_past, y_world) (involved y_genesis y_h) 100
  /\ rooted y_keccak (fun _ _ _ => 100) (fun _ i => Some i) (fun _ _ => zeros 32) e_interp 1025 (fun _ => [1; 2]) y_cfg y_hash y_genesis (y_past, y_world) y_root (involved y_genesis y_h)
  /\ exists c m i, n_history y_hash (fun _ _ => true) (mem_run y_keccak (fun _ _ _ => 100) (fun _ i => Some i) (fun _ _ => zeros 32) e_interp 1025 (fun _ => [1; 2]) y_cfg y_orders)
                     (mem_undo y_orders) (mem_state_root y_keccak y_orders) y_genesis (y_mem, O) y_h (c, (m, i))
       /\ c_canonical c = [y_hash y_genesis; y_hash y_c; y_hash y_e] /\ map k_ok y_h = [true; true; true; false; false]
       /\ map (fun a => a_balance <$> m_accounts m !! a) [100; 200; 300; 99] = [Some 8831770; Some 60; Some 20; Some 4000000000000350448].
Proof.
  split; [exact y_keccak_32|]. split; [exact y_orders_ok|]. split; [exact y_mem_ok|]. split; [exact y_coded|]. split; [exact y_no_collision|]. split; [exact y_no_overflow|].
  split; [vm_compute; discriminate|]. split; [exact y_executable|]. split; [exact y_rooted|]. exact y_witness.
Qed.
