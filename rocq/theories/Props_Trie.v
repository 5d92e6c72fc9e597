(** C38 path encoding, C39 trie root, C40 root of a list, C41 node codec, C65 intermediate nodes, C66 the root commits to the content. *)
From Verif Require Import Base RlpSpec TrieModel TrieSpec TrieProofs3 TrieProofs5 TrieLemmas TrieVector TrieNode TrieCases.

(** C38: the path encoding is the hex-prefix encoding, and no two paths or flags share an encoding. *)
Theorem C38_hex_prefix : forall path leaf, Forall (fun n => n < 16) path -> encode_path path leaf = HP path leaf.
Proof. exact path_encoding. Qed.
Theorem C38_injective : forall p q f g, Forall (fun n => n < 16) p -> Forall (fun n => n < 16) q -> HP p f = HP q g -> p = q /\ f = g.
Proof. exact HP_inj. Qed.
Theorem C38_unpack : forall b, unpack_nibbles b = nibbles b.
Proof. exact unpack_nibbles_spec. Qed.
Theorem C38_unpack_prefix : forall a b x, wf_bytes a -> wf_bytes b -> nibbles b = nibbles a ++ x -> exists c, b = a ++ c /\ x = nibbles c.
Proof. exact nibbles_prefix. Qed.
Example C38_case : encode_path [1; 2; 3] true = [0x31; 0x23] /\ encode_path [1; 2; 3; 4] false = [0; 0x12; 0x34].
Proof. split; reflexivity. Qed.

(** C39: whatever entries are added, in increasing order and none a prefix of another, the root is that of a trie in
    canonical form that holds exactly these entries, and there is only one such trie. *)
Theorem C39_root : forall keccak entries, hash_32 keccak -> valid_entries entries -> entries <> [] ->
  exists t, canonical t /\ holds t entries /\ build keccak false entries = Some (trie_root keccak t, []).
Proof. exact builder_root. Qed.
Theorem C39_unique : forall entries t u, valid_entries entries -> canonical t -> canonical u -> holds t entries -> holds u entries -> t = u.
Proof. exact holds_unique. Qed.
Theorem C39_empty : forall keccak collect, build keccak collect [] = Some (kEmptyRoot, []).
Proof. exact (fun _ _ => eq_refl). Qed.
Example C39_case : valid_entries small_entries /\ hash_32 toy /\ small_entries <> [].
Proof. exact (conj small_valid (conj toy_32 small_nonempty)). Qed.

(** C40: the root of a list of values is that of the trie that maps the RLP of each position to the value there. *)
Theorem C40_list_root : forall values, N.of_nat (length values) < 2 ^ 62 -> Forall (fun v => blen v < 2 ^ 62) values ->
  forall keccak t, hash_32 keccak -> canonical t -> holds_list t values -> vector_root keccak values = Some (trie_root keccak t).
Proof. exact vector_root_ok. Qed.
Theorem C40_exists : forall values, N.of_nat (length values) < 2 ^ 62 -> Forall (fun v => blen v < 2 ^ 62) values ->
  forall keccak, hash_32 keccak -> values <> [] -> exists t, canonical t /\ holds_list t values.
Proof. exact vector_exists. Qed.
Theorem C40_empty : forall keccak, vector_root keccak [] = Some kEmptyRoot.
Proof. exact (fun _ => eq_refl). Qed.
Example C40_case : vector_root toy vector3 = Some (trie_root toy (Branch ([Some (Branch ([None; Some (Leaf [] [1; 2]); Some (Leaf [] [3])] ++ repeat None 13))] ++ repeat None 7 ++ [Some (Leaf [0] (long 7))] ++ repeat None 7))).
Proof. exact vector3_root. Qed.

(** C41: nodes survive the database, and what is read back was written from exactly that node. *)
Theorem C41_roundtrip : forall n, node_ok n -> unmarshal_node (marshal_node n) = Some n.
Proof. exact node_roundtrip. Qed.
Theorem C41_exact_partial : forall v n, wf_bytes v -> unmarshal_node v = Some n ->
  marshal_node n = v /\ small_masks ([], n) /\ Forall (fun h => length h = 32%nat) (n_hashes n) /\ match n_root_hash n with Some h => length h = 32%nat | None => True end.
Proof. exact node_unmarshal_exact. Qed.
Theorem C41_length : forall v, unmarshal_node v = None <-> (length v < 6 \/ (length v - 6) mod 32 <> 0)%nat.
Proof. exact node_bad_length. Qed.
(** Not every accepted record is a node: the number of hashes need not match the mask. *)
Theorem C41_count_refuted : exists v n, wf_bytes v /\ unmarshal_node v = Some n /\ length (n_hashes n) <> popcount16 (n_hash_mask n).
Proof. exact bad_node. Qed.

(** C65: the intermediate nodes reported for the database are those of the trie, children before parents. *)
Theorem C65_reports_partial : forall keccak entries t, hash_32 keccak -> valid_entries entries -> canonical t -> holds t entries -> big_branches keccak t ->
  exists out, build keccak true entries = Some (trie_root keccak t, out) /\ map as_report out = collected keccak [] t /\ Forall small_masks out.
Proof. exact builder_reports. Qed.
(** The condition holds for account records, and for storage unless two hashed locations share 28 bytes. *)
Theorem C65_condition : forall keccak entries t, hash_32 keccak -> valid_entries entries -> canonical t -> holds t entries ->
  (forall k v, In (k, v) entries -> 32 <= blen v)
  \/ ((forall k v, In (k, v) entries -> length k = 32%nat) /\ (forall k1 v1 k2 v2, In (k1, v1) entries -> In (k2, v2) entries -> firstn 28 k1 = firstn 28 k2 -> k1 = k2)) ->
  big_branches keccak t.
Proof. exact reports_defined. Qed.
(** Without it the collecting builder copies 32 bytes out of a shorter child, although the root is well defined. *)
Theorem C65_small_refuted : exists entries, valid_entries entries /\ build toy true entries = None /\ exists root, build toy false entries = Some (root, []).
Proof. exact (ex_intro _ small_entries (conj small_valid small_loses)). Qed.
Example C65_case : (exists t, canonical t /\ holds t nested_entries /\ big_branches toy t) /\ valid_entries nested_entries
  /\ build toy true nested_entries = Some (trie_root toy nested_trie, [([], mkNode 3 0 1 [trie_root toy (Branch ([Some (Leaf [0; 1] (long 1)); Some (Leaf [1; 2] (long 2))] ++ repeat None 14))] (Some (trie_root toy nested_trie)))]).
Proof. exact (conj nested_meets (conj nested_valid nested_built)). Qed.

(** C66: unless the hash function collides on the nodes of the two tries, equal roots mean equal contents. *)
Theorem C66_binding : forall keccak e1 e2 t1 t2 root o1 o2, hash_32 keccak -> valid_entries e1 -> valid_entries e2 -> Forall (fun e => wf_bytes (snd e)) (e1 ++ e2) -> e1 <> [] -> e2 <> [] ->
  canonical t1 -> canonical t2 -> holds t1 e1 -> holds t2 e2 -> collision_free keccak (encodings keccak t1 ++ encodings keccak t2) ->
  build keccak false e1 = Some (root, o1) -> build keccak false e2 = Some (root, o2) -> e1 = e2.
Proof. exact root_binding. Qed.
Example C66_case : valid_entries pair_entries /\ canonical pair_trie /\ holds pair_trie pair_entries /\ collision_free toy (encodings toy pair_trie ++ encodings toy pair_trie)
  /\ Forall (fun e => wf_bytes (snd e)) (pair_entries ++ pair_entries) /\ build toy false pair_entries = Some (trie_root toy pair_trie, []).
Proof. exact pair_meets. Qed.

Print Assumptions C38_hex_prefix.
Print Assumptions C38_injective.
Print Assumptions C38_unpack.
Print Assumptions C38_unpack_prefix.
Print Assumptions C39_root.
Print Assumptions C39_unique.
Print Assumptions C39_empty.
Print Assumptions C40_list_root.
Print Assumptions C40_exists.
Print Assumptions C40_empty.
Print Assumptions C41_roundtrip.
Print Assumptions C41_exact_partial.
Print Assumptions C41_length.
Example C41_case : node_ok (mkNode 0x1007 2 5 [repeat 1 32; repeat 2 32] (Some (repeat 3 32)))
  /\ length (marshal_node (mkNode 0x1007 2 5 [repeat 1 32; repeat 2 32] (Some (repeat 3 32)))) = 102%nat.
Proof. split; [repeat split; repeat constructor|reflexivity]. Qed.
Print Assumptions C41_count_refuted.
Print Assumptions C65_reports_partial.
Print Assumptions C65_condition.
Print Assumptions C65_small_refuted.
Print Assumptions C66_binding.
