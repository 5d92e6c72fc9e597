(** What the checking commands are to find out. *)
From Verif Require Import Base BlockModel BlockSpec RlpSpec DbTable DbModel DbSpec EthashSpec.

(** *** Block hashes: the hash of every canonical block leads back to its number. *)
Definition canonical_at (d : database) (n : N) (hash : bytes) : Prop := n < 2 ^ 64 /\ In (be_fixed 8 n, hash) (d kCanonicalHashes).
Definition numbered (d : database) (hash : bytes) (n : N) : Prop := n < 2 ^ 64 /\ In (hash, be_fixed 8 n) (d kHeaderNumbers).
(** Keys of CanonicalHashes and values of HeaderNumbers are block numbers. *)
Record number_shapes (d : database) : Prop := {
  ns_keys : forall k v, In (k, v) (d kCanonicalHashes) -> exists n, n < 2 ^ 64 /\ k = be_fixed 8 n;
  ns_values : forall k v, In (k, v) (d kHeaderNumbers) -> exists n, n < 2 ^ 64 /\ v = be_fixed 8 n
}.

(** *** Transaction lookup: the hash of every transaction of a stored body leads to the number of its block. *)
Definition stored_body_at (d : database) (n : N) (b : stored_body) : Prop :=
  n < 2 ^ 64 /\ wf_stored b /\ exists hash, length hash = 32%nat /\ In (be_fixed 8 n ++ hash, RLP (stored_item b)) (d kBlockBodies).
Definition tx_record (d : database) (id : N) (rlp : bytes) : Prop := id < 2 ^ 64 /\ In (be_fixed 8 id, rlp) (d kEthTx).
Definition looked_up (d : database) (hash : bytes) (n : N) : Prop := exists v, In (hash, v) (d kTxLookup) /\ be_to_N v = n.
Section Lookup.
  Variable keccak : bytes -> bytes.
  (** All transactions of a body are there and lead to block [n]. *)
  Definition body_indexed (d : database) (b : stored_body) (n : N) : Prop :=
    forall i, i < sb_count b -> exists rlp, tx_record d (sb_base b + i) rlp /\ looked_up d (keccak rlp) n.
  Definition lookup_right (d : database) : Prop := forall n b, stored_body_at d n b -> body_indexed d b n.
End Lookup.
(** The shape of the tables: bodies under number and hash, transactions under ids without gaps, compact numbers. *)
Record lookup_shapes (d : database) : Prop := {
  ls_bodies : forall k v, In (k, v) (d kBlockBodies) -> exists n hash b, n < 2 ^ 64 /\ length hash = 32%nat /\ wf_stored b /\ k = be_fixed 8 n ++ hash /\ v = RLP (stored_item b);
  ls_few : N.of_nat (length (d kBlockBodies)) < 2 ^ 64;
  ls_txs : keys8 (d kEthTx);
  ls_no_gap : forall a b c v w, a < b -> b < c -> tx_record d a v -> tx_record d c w -> exists u, tx_record d b u;
  ls_numbers : forall k v, In (k, v) (d kTxLookup) -> (length v <= 8)%nat
}.
(** One body for each block from block 0 on. *)
Definition bodies_from_zero (d : database) : Prop :=
  forall i k v, nth_error (d kBlockBodies) i = Some (k, v) -> exists hash, length hash = 32%nat /\ k = be_fixed 8 (N.of_nat i) ++ hash.

(** *** Hashed state *)
Section Hashed.
  Variable keccak : bytes -> bytes.
  Definition account_in (d : database) (a v : bytes) : Prop := length a = 20%nat /\ In (a, v) (d kPlainState).
  Definition accounts_match (d : database) : Prop := forall a v, account_in d a v -> In (keccak a, v) (d kHashedAccounts).
  Definition code_in (d : database) (a i v : bytes) : Prop := length a = 20%nat /\ length i = 8%nat /\ In (a ++ i, v) (d kPlainContractCode).
  Definition codes_match (d : database) : Prop := forall a i v, code_in d a i v -> In (keccak a ++ i, v) (d kContractCode).
  Definition slot_in (d : database) (a i l s : bytes) : Prop := length a = 20%nat /\ length i = 8%nat /\ length l = 32%nat /\ In (a ++ i, l ++ s) (d kPlainState).
  Definition slots_match (d : database) : Prop := forall a i l s, slot_in d a i l s -> In (keccak a ++ i, keccak l ++ s) (d kHashedStorage).
End Hashed.

(** *** Proof of work *)
(** The canonical header of a block, as stored. *)
Record canonical_block (d : database) (n : N) (h : block_header) : Prop := {
  cb_header : wf_header h /\ small_item (header_item h);
  cb_stored : exists hash, length hash = 32%nat /\ In (be_fixed 8 n, hash) (d kCanonicalHashes) /\ In (be_fixed 8 n ++ hash, RLP (header_item h)) (d kHeaders)
}.
