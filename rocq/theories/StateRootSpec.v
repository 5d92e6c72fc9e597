(** Specification: the state root of the Yellow Paper, section 4.1 and appendix D, with the keys hashed. Independent of the C++ code. *)
From Verif Require Import Base RlpSpec TypesModel TypesSpec TrieSpec.

(** A state: the accounts by address, and the words in storage by address, incarnation and location (zero: not there). *)
Record state := mkState { accounts : N -> option account; slots : N -> N -> N -> N }.
Definition state_ok (s : state) : Prop :=
  (forall a acc, accounts s a = Some acc -> wf_account acc) /\ (forall a i l, slots s a i l < 2 ^ 256).
(** Storage belongs to contracts: their incarnation is not zero. *)
Definition contracts_only (s : state) : Prop := forall a l, slots s a 0 l = 0.

Section Root.
  Variable keccak : bytes -> bytes.
  (** The root hash of an empty trie: the hash of the RLP of the empty string, under Keccak-256. *)
  Definition empty_root : bytes := be_fixed 32 0x56e81f171bcc55a6ff8345e692c0f86e5b48e01b996cadc001622fb5e363b421.
  (** The trie with exactly the given content (none if there is no content), and its root hash. *)
  Definition is_trie (content : bytes -> bytes -> Prop) (o : option mpt) : Prop :=
    match o with
    | None => forall k v, ~ content k v
    | Some t => canonical t /\ forall p v, get t p = Some v <-> exists k, p = nibbles k /\ content k v
    end.
  Definition root_of (o : option mpt) : bytes := match o with None => empty_root | Some t => trie_root keccak t end.
  Definition is_root (content : bytes -> bytes -> Prop) (root : bytes) : Prop := exists o, is_trie content o /\ root = root_of o.

  (** The storage of an account: the RLP of the word under the hash of the location. *)
  Definition storage_content (s : state) (a i : N) (k v : bytes) : Prop :=
    exists l, l < 2 ^ 256 /\ slots s a i l <> 0 /\ k = keccak (be_fixed 32 l) /\ v = RLP (Num (slots s a i l)).
  (** The world state: the RLP of nonce, balance, storage root and code hash under the hash of the address. *)
  Definition state_content (s : state) (k v : bytes) : Prop :=
    exists a acc r, a < 2 ^ 160 /\ accounts s a = Some acc /\ is_root (storage_content s a (a_incarnation acc)) r
      /\ k = keccak (be_fixed 20 a) /\ v = RLP (account_item acc r).
  Definition is_state_root (s : state) (root : bytes) : Prop := is_root (state_content s) root.
End Root.

(** The same accounts, without any storage. *)
Definition without_storage (s : state) : state := mkState (accounts s) (fun _ _ _ => 0).

(** The hashed tables of a database hold a state: accounts under the hash of the address; slots under the hash of the address and
    the incarnation, as the hash of the location followed by the bytes of the word. Nothing is said about other storage records. *)
From Verif Require Import DbTable DbModel.
Record hashed_state (keccak : bytes -> bytes) (s : state) (d : database) : Prop := {
  hst_accounts : forall k v, In (k, v) (d kHashedAccounts) <-> exists a acc, a < 2 ^ 160 /\ accounts s a = Some acc /\ k = keccak (be_fixed 20 a) /\ v = encode_for_storage acc false;
  hst_slots : forall a acc v, a < 2 ^ 160 -> accounts s a = Some acc -> a_incarnation acc <> 0 ->
    (In (keccak (be_fixed 20 a) ++ be_fixed 8 (a_incarnation acc), v) (d kHashedStorage)
     <-> exists l, l < 2 ^ 256 /\ slots s a (a_incarnation acc) l <> 0 /\ v = keccak (be_fixed 32 l) ++ BE (slots s a (a_incarnation acc) l))
}.
(** No two hashed locations of one account agree in their first 28 bytes. *)
Definition spread (keccak : bytes -> bytes) (s : state) : Prop :=
  forall a i l l', l < 2 ^ 256 -> l' < 2 ^ 256 -> slots s a i l <> 0 -> slots s a i l' <> 0 -> firstn 28 (keccak (be_fixed 32 l)) = firstn 28 (keccak (be_fixed 32 l')) -> l = l'.

(** The intermediate nodes in the database: the masks, the root if the node is the root, and the hashes. *)
Definition mask (l : list N) : N := fold_right (fun d m => 2 ^ d + m) 0 l.
Definition record_of (r : report) : bytes :=
  be_fixed 2 (mask (rp_children r)) ++ be_fixed 2 (mask (rp_tree r)) ++ be_fixed 2 (mask (rp_hash r)) ++ match rp_root r with Some h => h | None => [] end ++ concat (rp_hashes r).
Definition reports_of (keccak : bytes -> bytes) (o : option mpt) : list report := match o with None => [] | Some t => collected keccak [] t end.
(** Nodes of the account trie are stored under their paths, except the root. *)
Definition account_node (keccak : bytes -> bytes) (s : state) (k v : bytes) : Prop :=
  exists o r, is_trie (state_content keccak s) o /\ In r (reports_of keccak o) /\ rp_path r <> [] /\ k = rp_path r /\ v = record_of r.
(** Nodes of the storage tries are stored under the hash of the address, the incarnation and the path. *)
Definition storage_node (keccak : bytes -> bytes) (s : state) (k v : bytes) : Prop :=
  exists a acc o r, a < 2 ^ 160 /\ accounts s a = Some acc /\ is_trie (storage_content keccak s a (a_incarnation acc)) o /\ In r (reports_of keccak o)
    /\ k = keccak (be_fixed 20 a) ++ be_fixed 8 (a_incarnation acc) ++ rp_path r /\ v = record_of r.
