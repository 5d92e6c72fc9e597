(** What a node is compared with: chains executed on the reference machine, which has no buffer, no recorded changes, no
    incarnations and no order of visits. *)
From stdpp Require Import gmap.
From Verif Require Import Base RlpModel TxModel BlockModel TypesModel ChainModel StateModel StateSpec MemBufModel MemBufSpec MemRootModel MemRootSpec EvmModel ProcessorModel RunSpec BlockchainModel BlockchainSpec ChainBufferModel ChainBufferSpec NodeModel.

(** Every key is visited exactly once. *)
Definition orders_ok (o : orders) : Prop := forall i,
  visits (or_set o i)
  /\ (forall s, order_ok s (fst (or_write o i s)) (snd (or_write o i s)))
  /\ (forall m n, unwind_order_ok m n (fst (or_unwind o i m n)) (snd (or_unwind o i m n)))
  /\ (forall m, account_order (m_accounts m) (fst (or_root o i m)) /\ slot_order (m_storage m) (snd (or_root o i m))).

Section Node.
  Variables keccak code_of : bytes -> bytes.
  Variable pre_gas : N -> bytes -> N -> N.
  Variable pre_run : N -> bytes -> option bytes.
  Variable block_hash : blk content -> N -> bytes.
  Variable interp : message -> bytes -> prog.
  Variable fuel : nat.
  Variable receipts_root : list receipt -> bytes.
  Variable config : chain_config.
  Variable hash : blk content -> bytes.

  (** A state: the world, and the addresses where a contract has been destroyed in an earlier block. *)
  Definition reference_of (b : blk content) (w : world) : option (list receipt * validation_result * list op * world) :=
    reference_block keccak (revision config (b_number b)) pre_gas pre_run (block_hash b) interp fuel receipts_root config
      (ct_header (b_rest b)) (ct_transactions (b_rest b)) (ct_ommers (b_rest b)) w.
  Definition reference_exec (s : (N -> bool) * world) (b : blk content) : option ((N -> bool) * world) :=
    match reference_of b (snd s) with
    | Some (_, kOk, _, w') => Some (next_past (fst s) (snd s) w', next_world w')
    | _ => None
    end.

  Variable genesis : blk content.
  Variable genesis_state : (N -> bool) * world.
  Notation valid_chain := (valid_chain hash reference_exec genesis genesis_state).

  (** The blocks [l] can be executed in whatever chain they form: the reference machine answers, with at most [calls] calls, no two codes share a hash, and no valid
      block is one of the two cases of C27 in which incarnations are forgotten. *)
  Definition executable (l : list (blk content)) (calls : N) : Prop :=
    forall p t past w d b, valid_chain (p :: t) (past, w) d -> Forall (fun x => In x l) (p :: t) -> In b l -> b_number b = b_number p + 1 -> b_parent b = hash p ->
    exists rs v ops w', reference_of b w = Some (rs, v, ops, w') /\ N.of_nat (length ops) <= calls /\ codes_ok keccak code_of ops
      /\ (v = kOk -> incarnations_kept past w w').
  (** [root] gives the state roots of the worlds that the blocks [l] lead to. *)
  Definition rooted (root : (N -> bool) * world -> bytes) (l : list (blk content)) : Prop :=
    forall t past w d, valid_chain t (past, w) d -> Forall (fun x => In x l) t ->
    world_range w /\ no_world_collision keccak w /\ is_world_root keccak w (root (past, w)).
End Node.
