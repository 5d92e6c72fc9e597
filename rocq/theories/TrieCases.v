(** The trie builder: concrete cases. *)
From Verif Require Import Base BaseFacts RlpSpec RlpModel RlpProofs UtilModel UtilProofs TrieModel TrieSpec TrieProofs TrieProofs2 TrieProofs3 TrieProofs4 TrieProofs5 TrieLemmas TrieVector TrieNode.

(** A hash function for the examples: the last 32 bytes, as a number. *)
Definition toy (b : bytes) : bytes := be_fixed 32 (be_to_N b).
Lemma toy_32 : hash_32 toy.
Proof. intros b. split; [apply be_fixed_length|apply be_fixed_wf]. Qed.

Definition small_entries : list (bytes * bytes) := [([0x00], [1]); ([0x01], [2]); ([0x10], [3])].
Definition long (x : N) : bytes := repeat x 40.
Definition big_entries : list (bytes * bytes) := [([0x00; 0x01], long 1); ([0x00; 0x12], long 2); ([0x10; 0x12], long 3)].

Ltac prefix_free := intros i j a b; do 3 (destruct i as [|i]; [do 3 (destruct j as [|j]; [cbn; intros Ha Hb Hn; injection Ha as <-; injection Hb as <-; first [congruence|intros (c & E); discriminate E]|]); destruct j; discriminate|]); destruct i; discriminate.
Lemma small_valid : valid_entries small_entries.
Proof.
  split.
  - repeat constructor; try discriminate; cbn; lia.
  - repeat constructor.
  - cbn. auto.
  - prefix_free.
Qed.
Lemma small_nonempty : small_entries <> []. Proof. discriminate. Qed.
Lemma big_valid : valid_entries big_entries.
Proof.
  split.
  - repeat constructor; try discriminate; cbn; lia.
  - repeat constructor.
  - cbn. auto.
  - prefix_free.
Qed.
Lemma small_loses : build toy true small_entries = None /\ exists root, build toy false small_entries = Some (root, []).
Proof. split; [vm_compute; reflexivity|]. eexists. vm_compute. reflexivity. Qed.

Definition nested_entries : list (bytes * bytes) := [([0x00; 0x01], long 1); ([0x01; 0x12], long 2); ([0x10; 0x12], long 3)].
Definition nested_trie : mpt :=
  Branch ([Some (Branch ([Some (Leaf [0; 1] (long 1)); Some (Leaf [1; 2] (long 2))] ++ repeat None 14)); Some (Leaf [0; 1; 2] (long 3))] ++ repeat None 14).
Lemma nested_valid : valid_entries nested_entries.
Proof.
  split.
  - repeat constructor; try discriminate; cbn; lia.
  - repeat constructor.
  - cbn. auto.
  - prefix_free.
Qed.
Lemma nested_built : build toy true nested_entries = Some (trie_root toy nested_trie, [([], mkNode 3 0 1 [trie_root toy (Branch ([Some (Leaf [0; 1] (long 1)); Some (Leaf [1; 2] (long 2))] ++ repeat None 14))] (Some (trie_root toy nested_trie)))]).
Proof. vm_compute. reflexivity. Qed.
Lemma nested_meets : exists t, canonical t /\ holds t nested_entries /\ big_branches toy t.
Proof.
  destruct (builder_root toy nested_entries toy_32 nested_valid ltac:(discriminate)) as (t & C & H & _). exists t. split; [exact C|]. split; [exact H|]. apply (reports_defined toy nested_entries t toy_32 nested_valid C H). left.
  intros k v I. repeat (destruct I as [I|I]; [injection I as <- <-; vm_compute; discriminate|]). destruct I.
Qed.
Definition vector3 : list bytes := [long 7; [1; 2]; [3]].
Lemma vector3_root : vector_root toy vector3 = Some (trie_root toy (Branch ([Some (Branch ([None; Some (Leaf [] [1; 2]); Some (Leaf [] [3])] ++ repeat None 13))] ++ repeat None 7 ++ [Some (Leaf [0] (long 7))] ++ repeat None 7))).
Proof. vm_compute. reflexivity. Qed.
Lemma bad_node : exists v n, wf_bytes v /\ unmarshal_node v = Some n /\ length (n_hashes n) <> popcount16 (n_hash_mask n).
Proof.
  exists (repeat 0 70), (mkNode 0 0 0 [repeat 0 32; repeat 0 32] None). split; [apply Forall_forall; intros x Hx; apply repeat_spec in Hx; subst; reflexivity|]. split; [vm_compute; reflexivity|]. vm_compute. discriminate.
Qed.
Definition pair_entries : list (bytes * bytes) := [([0x01], long 1); ([0x12], long 2)].
Definition pair_trie : mpt := Branch ([Some (Leaf [1] (long 1)); Some (Leaf [2] (long 2))] ++ repeat None 14).
Lemma pair_meets : valid_entries pair_entries /\ canonical pair_trie /\ holds pair_trie pair_entries /\ collision_free toy (encodings toy pair_trie ++ encodings toy pair_trie)
  /\ Forall (fun e => wf_bytes (snd e)) (pair_entries ++ pair_entries) /\ build toy false pair_entries = Some (trie_root toy pair_trie, []).
Proof.
  split; [|split; [|split; [|split; [|split]]]].
  - split.
    + repeat constructor; try discriminate; cbn; lia.
    + repeat constructor.
    + cbn. auto.
    + intros i j a b; do 2 (destruct i as [|i]; [do 2 (destruct j as [|j]; [cbn; intros Ha Hb Hn; injection Ha as <-; injection Hb as <-; first [congruence|intros (c & E); discriminate E]|]); destruct j; discriminate|]); destruct i; discriminate.
  - cbn. repeat split; lia.
  - split.
    + intros k v H. repeat (destruct H as [H|H]; [injection H as <- <-; vm_compute; reflexivity|]). destruct H.
    + intros p v G. unfold pair_trie in G. destruct p as [|b p]; [discriminate|]. rewrite get_branch in G. destruct (N.to_nat b) as [|[|n]] eqn:Eb; cbn [nth_error app] in G.
      * apply get_leaf in G as (-> & ->). exists [1]. assert (b = 0) as -> by lia. split; [reflexivity|now left].
      * apply get_leaf in G as (-> & ->). exists [0x12]. assert (b = 1) as -> by lia. split; [reflexivity|right; now left].
      * exfalso. destruct (nth_error (repeat None 14) n) as [o|] eqn:E; [|discriminate]. apply nth_error_In, repeat_spec in E. subst o. discriminate.
  - intros a b Ha Hb E. assert (X : forallb (fun a => forallb (fun b => negb (bytes_eqb (toy a) (toy b)) || bytes_eqb a b) (encodings toy pair_trie ++ encodings toy pair_trie)) (encodings toy pair_trie ++ encodings toy pair_trie) = true) by (vm_compute; reflexivity).
    rewrite forallb_forall in X. specialize (X a Ha). rewrite forallb_forall in X. specialize (X b Hb). rewrite E, (proj2 (bytes_eqb_eq (toy b) (toy b)) eq_refl) in X. cbn [negb orb] in X. now apply bytes_eqb_eq.
  - apply Forall_forall. intros e He. repeat (destruct He as [He|He]; [subst e; repeat constructor|]). destruct He.
  - vm_compute. reflexivity.
Qed.
