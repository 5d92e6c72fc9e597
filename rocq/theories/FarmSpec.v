(** Specification of the recovery of senders: a chain that waits for it, and what has to be stored for a block. *)
From Coq Require Import Strings.String.
From Verif Require Import Base EcdsaModel TxModel BlockModel ChainModel DbTable DbModel DbSpec FarmModel.
Open Scope list_scope.
Open Scope N_scope.

(** A block of the canonical chain: number, hash, transactions and their senders. *)
Record chain_block := mkChainBlock { b_number : N; b_hash : bytes; b_txs : list transaction; b_senders : list bytes }.
(** What has to be in the table of senders for it: the addresses one after the other. *)
Definition senders_entry (b : chain_block) : entry := (block_key_hash (b_number b) (b_hash b), concat (b_senders b)).
Definition count (l : list chain_block) : N := N.of_nat (length (concat (map b_txs l))).

(** What is_valid_signature and EIP-155 ask of a transaction of block n. *)
Definition signed_for (c : chain_config) (n : N) (t : transaction) : Prop :=
  is_valid_signature (tx_r t) (tx_s t) (EVMC_HOMESTEAD <=? revision c n) = true
  /\ forall id, tx_chain_id t = Some id -> EVMC_SPURIOUS_DRAGON <= revision c n /\ id = cfg_chain_id c.

(** A database in which the blocks, numbered from [from] on, wait for their senders: their hashes are the last ones of the canonical chain, their
    bodies are there, every transaction is well signed and its sender is the one recover_sender gives, and no block is larger than a batch. *)
Record waiting_chain (keccak : bytes -> bytes) (recover : bytes -> bytes -> bool -> option bytes) (d : database) (c : chain_config) (max_batch_size from : N) (blocks : list chain_block) : Prop := {
  wc_wf : wf_db d;
  wc_some : blocks <> [];
  wc_number : forall i b, nth_error blocks i = Some b -> b_number b = from + N.of_nat i;
  wc_fits : from + N.of_nat (length blocks) < 2 ^ 64;
  wc_positive : 0 < from;
  wc_hash : forall b, In b blocks -> length (b_hash b) = 32%nat;
  wc_canonical : exists l, d kCanonicalHashes = l ++ map (fun b => (block_key (b_number b), b_hash b)) blocks;
  wc_body : forall b, In b blocks -> exists body, read_body d (b_number b) (b_hash b) false = Done (Some body) /\ bd_transactions body = b_txs b;
  wc_keys : forall k v, In (k, v) (d kBlockBodies) -> exists n h, k = block_key_hash n h /\ n < 2 ^ 64 /\ length h = 32%nat;
  wc_signed : forall b t, In b blocks -> In t (b_txs b) -> signed_for c (b_number b) t;
  wc_recovered : forall b, In b blocks -> Forall2 (fun t a => recover_sender keccak recover t = Some a) (b_txs b) (b_senders b);
  wc_batch : forall b, In b blocks -> N.of_nat (length (b_txs b)) <= max_batch_size;
  wc_size : max_batch_size * 20 < 2 ^ 32;
  wc_old : forall k v, In (k, v) (d kSenders) -> exists n h, k = block_key_hash n h /\ n < from /\ length h = 32%nat;
  wc_progress : get_stage_progress d kSendersKey = Done (from - 1);
  wc_reached : get_stage_progress d kBlockBodiesKey = Done (from + N.of_nat (length blocks) - 1);
  wc_total : N.of_nat (length blocks) * (60 + max_batch_size * 20) < 2 ^ 64
}.

(** The senders of the first m blocks are stored: after what was there, and readable under the block's number and hash; the progress of the stage is
    the last of these blocks; nothing else is touched. *)
Definition senders_stored (d : database) (from : N) (blocks : list chain_block) (m : nat) (d' : database) : Prop :=
  d' kSenders = d kSenders ++ map senders_entry (firstn m blocks)
  /\ (forall b, In b (firstn m blocks) -> read_senders d' (b_number b) (b_hash b) = Done (b_senders b))
  /\ (forall t, t <> kSenders -> t <> kSyncStageProgress -> d' t = d t)
  /\ (forall name, get_stage_progress d' name = if bytes_eqb kSendersKey name then Done (from + N.of_nat m - 1) else get_stage_progress d name).
