(** Model of Blockchain over MemoryBuffer, with blocks executed by the processor (core/silkworm/chain/blockchain.cpp,
    execution/execution.cpp, state/memory_buffer.cpp): the parameters of ChainBufferModel filled in. *)
From stdpp Require Import gmap.
From Verif Require Import Base RlpModel TxModel BlockModel TypesModel ChainModel StateModel MemBufModel MemRootModel EvmModel ProcessorModel BlockchainModel ChainBufferModel.

(** What a block holds besides the fields Blockchain looks at. *)
Record content := mkContent { ct_header : block_header; ct_transactions : list transaction; ct_ommers : list block_header }.
(** types/block.hpp:30-93: number, parent hash, difficulty and state root are those of the header. *)
Definition block_of (h : block_header) (ts : list transaction) (os : list block_header) : blk content :=
  mkBlk (hd_number h) (hd_parent_hash h) (hd_difficulty h) (hd_state_root h) (mkContent h ts os).

(** The order in which the hash maps and sets are visited: whatever it is each time. *)
Record orders := mkOrders {
  or_set : nat -> gset N -> list N;                                  (* self_destructs_ and touched_ *)
  or_write : nat -> ibs -> list (N * list N) * list N;               (* storage_ and objects_ in write_to_db *)
  or_unwind : nat -> membuf -> N -> list N * list (N * N * N);       (* the changes of a block in unwind_state_changes *)
  or_root : nat -> membuf -> list (N * account) * (N -> N -> list (N * N)) (* accounts_ and storage_ in state_root_hash *)
}.

Section Node.
  Variable keccak : bytes -> bytes.
  Variable pre_gas : N -> bytes -> N -> N.
  Variable pre_run : N -> bytes -> option bytes.
  Variable block_hash : blk content -> N -> bytes.                   (* the hashes of the ancestors of a block *)
  Variable interp : message -> bytes -> prog.
  Variable fuel : nat.
  Variable receipts_root : list receipt -> bytes.
  Variable config : chain_config.
  Variable hash : blk content -> bytes.
  Variable pre : gmap (N * bytes) (blk content) -> blk content -> bool.
  Variable o : orders.

  (** the state in the buffer, and the number of visits so far *)
  Definition store : Type := membuf * nat.

  (** execution.cpp:25-79 *)
  Definition mem_run (x : store) (b : blk content) : option (bool * store) :=
    let '(m, i) := x in
    match run_block keccak (mem_reader m) (revision config (b_number b)) pre_gas pre_run (block_hash b) interp fuel (or_set o i) receipts_root config
            (ct_header (b_rest b)) (ct_transactions (b_rest b)) (ct_ommers (b_rest b)) with
    | None => None
    | Some (_, kOk, Some s) => let '(sord, oord) := or_write o i s in Some (true, (write_to_db s m (b_number b) sord oord, S i))
    | Some _ => Some (false, (m, S i))
    end.
  (** memory_buffer.cpp:189-209 *)
  Definition mem_undo (x : store) (n : N) : store :=
    let '(m, i) := x in let '(aord, sord) := or_unwind o i m n in (unwind_state_changes m n aord sord, S i).
  (** memory_buffer.cpp:259-278 *)
  Definition mem_state_root (x : store) : option bytes :=
    let '(m, i) := x in let '(accs, storage) := or_root o i m in mem_root keccak accs storage.

  (** blockchain.cpp:25-30, 32-89 *)
  Definition node_start (genesis : blk content) (m : membuf) : node (P := content) (T := store) := n_start hash genesis (m, O).
  Definition node_insert_block (x : node) (b : blk content) (check : bool) : outcome (bool * node) :=
    n_insert_block hash pre mem_run mem_undo mem_state_root x b check.
End Node.
