(** Model of db/silkworm/trie/db_trie.cpp: DbTrieLoader and regenerate_db_tries.

    The cursors over the intermediate tries are stubs in the code (db_trie.cpp:29-74): their key is always absent, they never skip,
    and the prefixes they return are the empty string and one zero byte; so the outer loops run once. The two collectors are separate
    objects that nothing else uses: [calculate_root] returns the entries handed to each of them, in order. Left out: the ETL
    directory and logging. *)
From Verif Require Import Base RlpModel TypesModel DbTable DbModel EtlModel TrieModel TrieNode.

Section Loader.
  Variable keccak : bytes -> bytes.

  (** db_trie.cpp:142-157: the records of one key. [substr(32)] throws if the value is shorter. *)
  Fixpoint storage_loop (p : table) (s : hb) : out hb :=
    match p with
    | [] => Done s
    | e :: r =>
      let packed_loc := firstn 32 (snd e) in
      if (length (snd e) <? 32)%nat then Throws
      else
        let value := skipn 32 (snd e) in
        match add keccak true packed_loc (encode_bytes value) s with
        | None => Undefined
        | Some s =>
          match r with
          | e' :: _ => if bytes_eqb (fst e') (fst e) then storage_loop r s else Done s
          | [] => Done s
          end
        end
    end.
  (** db_trie.cpp:126-169: the storage root and the entries for the storage collector. *)
  Definition storage_root_of (d : database) (key : bytes) (a : account) : out (bytes * list entry) :=
    if a_incarnation a =? 0 then Done (kEmptyRoot, [])
    else
      let acc_with_inc := storage_prefix key (a_incarnation a) in
      do s := storage_loop (lower_bound_multivalue (d kHashedStorage) acc_with_inc [0]) hb_new in
      match root_hash keccak true s with
      | None => Undefined
      | Some (root, s) => Done (root, map (fun n => (acc_with_inc ++ fst n, marshal_node (snd n))) (hb_out s))
      end.
  (** db_trie.cpp:117-172 *)
  Fixpoint account_loop (d : database) (p : table) (s : hb) (storage_nodes : list entry) : out (hb * list entry) :=
    match p with
    | [] => Done (s, storage_nodes)
    | e :: r =>
      do a := err_handler (decode_account (snd e)) in
      do (storage_root, nodes) := storage_root_of d (fst e) a in
      match add keccak true (fst e) (account_rlp a storage_root) s with
      | None => Undefined
      | Some s => account_loop d r s (storage_nodes ++ nodes)
      end
    end.
  (** db_trie.cpp:76-88: the node with the empty key is not collected. *)
  Definition account_nodes (nodes : list (bytes * node)) : list entry :=
    concat (map (fun n => match fst n with [] => [] | _ => [(fst n, marshal_node (snd n))] end) nodes).
  (** db_trie.cpp:111-185: the root, and the entries for the account and the storage collector. *)
  Definition calculate_root (d : database) : out (bytes * list entry * list entry) :=
    do (s, storage_nodes) := account_loop d (lower_bound (d kHashedAccounts) []) hb_new [] in
    match root_hash keccak true s with
    | None => Undefined
    | Some (root, s) => Done (root, account_nodes (hb_out s), storage_nodes)
    end.

  (** db_trie.cpp:253-272; collectors of 256 MiB (etl/collector.hpp:27). *)
  Variable pick : list (entry * nat) -> nat.   (* the heap of the collector: EtlModel *)
  Definition load_upsert (t : table) (entries : list entry) : out table :=
    do (l, _) := load pick (length entries) (fold_left collect entries (new_collector (256 * 2 ^ 20))) in Done (put_all t l).
  Definition regenerate_db_tries (d : database) (expected_root : option bytes) : out (bytes * database) :=
    do (res, storage_nodes) := calculate_root d in
    let '(root, account_nodes) := res in
    if match expected_root with Some e => negb (bytes_eqb root e) | None => false end then Throws
    else
      do a := load_upsert (d kTrieOfAccounts) account_nodes in
      let d := set_table d kTrieOfAccounts a in
      do s := load_upsert (d kTrieOfStorage) storage_nodes in
      Done (root, set_table d kTrieOfStorage s).
End Loader.
