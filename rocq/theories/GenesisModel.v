(** Model of cmd/initialize_with_genesis.cpp:154-262: what is written to a new database.

    Left out: reading and checking the JSON (117-152), the formats of its strings (171-187, 203-226: hex, decimal and stoull) and the
    table kHeadHeader, which nothing in the modelled code reads. The file arrives as a [genesis] record. intx::as_bytes is the memory
    of the number, and memcpy from an integer copies its memory: least significant byte first. *)
From stdpp Require Import gmap.
From Verif Require Import Base RlpModel TypesModel TrieModel BlockModel ChainModel DbTable DbModel BufferModel MemRootModel GenesisSpec.

Section Genesis.
  Variable keccak : bytes -> bytes.
  Variable visit : gmap N (option account) -> list (N * option account).   (* the order in which the hash map of accounts is visited *)
  Definition le_fixed (n : nat) (x : N) : bytes := rev (be_fixed n x).
  (** 166-187 *)
  Definition allocate (l : list (N * N)) : buffer :=
    fold_left (fun b e => update_account b (fst e) None (Some (mkAccount 0 (snd e) kEmptyHash 0))) l buf_empty.
  (** 166-198; [at] throws if no change was recorded for block 0. *)
  Definition write_allocations (g : genesis) (d : database) : out (buffer * database) :=
    match g_alloc g with
    | None => Done (buf_empty, d)
    | Some l =>
      let b := allocate l in
      match b_acc_changes b !! 0 with
      | None => Throws
      | Some c => if Nat.eqb (size c) (length l) then Done (b, buf_write_to_db b d) else Throws
      end
    end.
  (** 200-227 *)
  Definition genesis_header (g : genesis) (state_root : bytes) : block_header :=
    mkHdr (zeros 32) kEmptyListHash (zeros 20) state_root kEmptyRoot kEmptyRoot (zeros 256) (g_difficulty g) 0 (g_gas_limit g) 0 (g_timestamp g)
      (g_extra g) (match g_mix g with Some h => h | None => zeros 32 end) (le_fixed 8 (g_nonce g)) None.
  (** 159-258 *)
  Definition initialize (g : genesis) (d : database) : out (bytes * database) :=
    do (b, d) := write_allocations g d in
    match buf_root keccak (visit (b_accounts b)) (fun _ _ => []) with
    | None => Undefined
    | Some root =>
      let header := genesis_header g root in
      let rlp_header := encode_hdr header false in
      let block_hash := keccak rlp_header in
      let key := zeros 8 ++ block_hash in
      let d := put d kHeaders key rlp_header in
      let d := put d kCanonicalHashes key block_hash in
      let d := put d kBlockBodies key [195; 128; 128; 192] in
      let d := put d kDifficulty key (le_fixed 32 (hd_difficulty header)) in
      let d := put d kBlockReceipts (firstn 8 key) [246] in
      let d := put d kHeaderNumbers block_hash (firstn 8 key) in
      Done (block_hash, put d kConfig block_hash (g_config g))
    end.
End Genesis.

(** access_layer.cpp:488-505, without the parsing of the JSON. *)
Definition read_chain_config (d : database) : option bytes :=
  match lookup (d kCanonicalHashes) (block_key 0) with
  | None => None
  | Some hash => lookup (d kConfig) hash
  end.
