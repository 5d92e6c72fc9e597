(** The trie loader: concrete cases. *)
From Coq Require Import Sorting.Sorted Permutation.
From stdpp Require Import gmap.
From Verif Require Import Base BaseFacts RlpSpec RlpModel RlpProofs TypesModel TypesSpec TypesProofs TypesLemmas TrieModel TrieSpec TrieProofs TrieProofs2 TrieLemmas TrieNode DbTable DbModel DbSpec DbProofs DbCases EtlModel EtlSpec EtlLemmas BufferModel BufferProofs BufferCases UnwindModel UnwindProofs UnwindCases HashStateModel HashStateSpec HashStateProofs HashStateProofs2 HashStateCases StateRootModel StateRootSpec StateRootProofs StateRootProofs2 StateRootLemmas.

(** A toy hash: zero and the last 31 bytes, last byte first; the hash of the RLP of the empty string is the root of the empty trie. *)
Definition flip_hash (b : bytes) : bytes := if bytes_eqb b [0x80] then empty_root else 0 :: firstn 31 (rev (map (fun x => x mod 256) b) ++ zeros 31).
Lemma flip_32 : hash_32 flip_hash.
Proof.
  intros b. unfold flip_hash. destruct (bytes_eqb b [0x80]); [split; [apply be_fixed_length|apply be_fixed_wf]|]. unfold zeros. split; [cbn [length]; rewrite firstn_length, app_length, repeat_length; lia|]. constructor; [reflexivity|]. apply Forall_forall. intros x I.
  assert (J : In x (rev (map (fun x => x mod 256) b) ++ repeat 0 31)) by (rewrite <- (firstn_skipn 31 (_ ++ _)); apply in_or_app; now left). apply in_app_or in J as [J|J].
  - apply in_rev in J. apply in_map_iff in J as (y & <- & _). now apply N.mod_lt.
  - apply repeat_spec in J. subst x. reflexivity.
Qed.
Lemma flip_empty x : flip_hash x = empty_root -> x = [0x80].
Proof. unfold flip_hash. destruct (eqb_spec x [0x80]) as [ -> |Ne]; [reflexivity|]. intros E. apply (f_equal (hd 0)) in E. vm_compute in E. discriminate. Qed.
Definition root_state : state :=
  mkState (fun a => if a =? 3 then Some c_account else if a =? 9 then Some old_account else None)
    (fun a i l => if (a =? 3) && (i =? 1) then if l =? 1 then 20 else if l =? 2 then 30 else if l =? 17 then 40 else 0 else 0).
Definition root_db : database :=
  put (put (put (put (put (put empty_db kHashedAccounts (flip_hash (addr 9)) (encode_for_storage old_account false)) kHashedAccounts (flip_hash (addr 3)) (encode_for_storage c_account false))
    kHashedStorage (flip_hash (addr 3) ++ be_fixed 8 1) (flip_hash (word 1) ++ [20])) kHashedStorage (flip_hash (addr 3) ++ be_fixed 8 1) (flip_hash (word 2) ++ [30])) kHashedStorage (flip_hash (addr 3) ++ be_fixed 8 1) (flip_hash (word 17) ++ [40]))
    kTrieOfAccounts [7] [1; 2; 3].
Lemma root_db_wf : wf_db root_db.
Proof. unfold root_db. repeat apply put_wf. apply empty_wf. Qed.
Lemma root_accounts a acc : accounts root_state a = Some acc <-> (a = 3 /\ acc = c_account) \/ (a = 9 /\ acc = old_account).
Proof.
  cbn [accounts root_state]. destruct (N.eqb_spec a 3) as [ -> |N3]; [split; [intros E; apply (inj Some) in E; auto|intros [( _ & -> )|(E & _)]; [reflexivity|discriminate]]|].
  destruct (N.eqb_spec a 9) as [ -> |N9]; [split; [intros E; apply (inj Some) in E; auto|intros [(E & _)|( _ & -> )]; [discriminate|reflexivity]]|]. split; [discriminate|]. intros [(E & _)|(E & _)]; congruence.
Qed.
Lemma root_slots l : slots root_state 3 1 l <> 0 <-> l = 1 \/ l = 2 \/ l = 17.
Proof.
  cbn [slots root_state]. change ((3 =? 3) && (1 =? 1)) with true. cbn iota. destruct (N.eqb_spec l 1); [subst; split; [auto|discriminate]|]. destruct (N.eqb_spec l 2); [subst; split; [auto|discriminate]|]. destruct (N.eqb_spec l 17); [subst; split; [auto|discriminate]|]. split; [congruence|lia].
Qed.
Lemma root_ok : state_ok root_state /\ contracts_only root_state /\ spread flip_hash root_state.
Proof.
  split; [split|split].
  - intros a acc E. apply root_accounts in E as [( _ & -> )|( _ & -> )]; vm_compute; repeat split; repeat constructor.
  - intros a i l. cbn [slots root_state]. destruct (_ && _); [|reflexivity]. destruct (l =? 1); [reflexivity|]. destruct (l =? 2); [reflexivity|]. destruct (l =? 17); reflexivity.
  - intros a l. cbn [slots root_state]. now rewrite andb_false_r.
  - intros a i l l' _ _ Z Z'. assert (X : a = 3 /\ i = 1). { cbn [slots root_state] in Z. destruct (N.eqb_spec a 3); destruct (N.eqb_spec i 1); cbn [andb] in Z; try congruence. auto. } destruct X as ( -> & -> ). apply root_slots in Z, Z'.
    destruct Z as [ -> |[ -> | -> ]], Z' as [ -> |[ -> | -> ]]; intros E; try reflexivity; vm_compute in E; discriminate.
Qed.
Lemma root_hashed : hashed_state flip_hash root_state root_db.
Proof.
  constructor.
  - intros k v. assert (I : In (k, v) (root_db kHashedAccounts) <-> (k = flip_hash (addr 3) /\ v = encode_for_storage c_account false) \/ (k = flip_hash (addr 9) /\ v = encode_for_storage old_account false)).
    { change (root_db kHashedAccounts) with [(flip_hash (addr 3), encode_for_storage c_account false); (flip_hash (addr 9), encode_for_storage old_account false)]. cbn [In]. rewrite !entry_eq. intuition congruence. }
    rewrite I. split.
    + intros [( -> & -> )|( -> & -> )]; [exists 3, c_account|exists 9, old_account]; (split; [reflexivity|]; split; [reflexivity|]; split; reflexivity).
    + intros (a & acc & _ & E & -> & -> ). apply root_accounts in E as [( -> & -> )|( -> & -> )]; auto.
  - intros a acc v _ E Hi. apply root_accounts in E as [( -> & -> )|( -> & -> )]; [|exfalso; apply Hi; reflexivity]. change (a_incarnation c_account) with 1.
    assert (I : In (flip_hash (be_fixed 20 3) ++ be_fixed 8 1, v) (root_db kHashedStorage) <-> v = flip_hash (word 1) ++ [20] \/ v = flip_hash (word 2) ++ [30] \/ v = flip_hash (word 17) ++ [40]).
    { change (root_db kHashedStorage) with [(flip_hash (addr 3) ++ be_fixed 8 1, flip_hash (word 1) ++ [20]); (flip_hash (addr 3) ++ be_fixed 8 1, flip_hash (word 2) ++ [30]); (flip_hash (addr 3) ++ be_fixed 8 1, flip_hash (word 17) ++ [40])]. cbn [In]. rewrite !entry_eq. change (be_fixed 20 3) with (addr 3). intuition congruence. }
    rewrite I. split.
    + intros [ -> |[ -> | -> ]]; [exists 1|exists 2|exists 17]; (split; [reflexivity|]; split; [discriminate|]; reflexivity).
    + intros (l & _ & Z & -> ). apply root_slots in Z as [ -> |[ -> | -> ]]; auto.
Qed.
Lemma root_case : hash_32 flip_hash /\ wf_db root_db /\ state_ok root_state /\ contracts_only root_state /\ hashed_state flip_hash root_state root_db /\ spread flip_hash root_state
  /\ exists root an sn, calculate_root flip_hash root_db = Done (root, an, sn) /\ collectable an /\ collectable sn /\ length sn = 1%nat /\ lookup (root_db kTrieOfAccounts) [7] = Some [1; 2; 3] /\ (forall v, ~ account_node flip_hash root_state [7] v).
Proof.
  assert (H := root_ok). destruct H as (H1 & H2 & H3). split; [exact flip_32|]. split; [exact root_db_wf|]. split; [exact H1|]. split; [exact H2|]. split; [exact root_hashed|]. split; [exact H3|].
  destruct (loader_root flip_hash flip_32 root_db root_db_wf root_state H1 H2 root_hashed H3) as (root & an & sn & E & _ & A & _). exists root, an, sn. split; [exact E|].
  assert (X : calculate_root flip_hash root_db = Done (root, an, sn)) by exact E. vm_compute in X. apply (f_equal (fun x => match x with Done y => y | _ => (root, an, sn) end)) in X. apply pair_equal_spec in X as (X & Xs). apply pair_equal_spec in X as (_ & Xa). cbv beta iota in Xs, Xa.
  split; [rewrite <- Xa; split; [repeat constructor|reflexivity]|]. split; [rewrite <- Xs; split; [repeat constructor|reflexivity]|]. split; [rewrite <- Xs; reflexivity|]. split; [reflexivity|]. intros v J. apply A in J. rewrite <- Xa in J. destruct J.
Qed.

(** A first run of the HashState stage over one contract with a slot and another account. *)
Definition first_state_of : state :=
  mkState (accounts root_state) (fun a i l => if (a =? 3) && (i =? 1) && (l =? 1) then 20 else 0).
Lemma first_plain : plain_accounts first_state_of first_db.
Proof.
  intros a v La. rewrite first_state. split.
  - intros [( -> & -> )|[( -> & -> )|( -> & -> )]]; [exists 9, old_account|exists 3, c_account|vm_compute in La; discriminate]; (split; [reflexivity|]; split; [reflexivity|]; split; reflexivity).
  - intros (n & acc & _ & -> & E & ->). apply root_accounts in E as [( -> & -> )|( -> & -> )]; auto.
Qed.
Lemma first_slot l : slots first_state_of 3 1 l <> 0 <-> l = 1.
Proof. cbn [slots first_state_of]. change ((3 =? 3) && (1 =? 1)) with true. cbn [andb]. destruct (N.eqb_spec l 1); split; [auto|discriminate|congruence|congruence]. Qed.
Lemma first_storage_root : is_root flip_hash (storage_content flip_hash first_state_of 3 1) (trie_root flip_hash (Leaf (nibbles (flip_hash (word 1))) [20])).
Proof.
  exists (Some (Leaf (nibbles (flip_hash (word 1))) [20])). split; [|reflexivity]. split; [exact I|]. intros p v. cbn [get]. destruct (strip (nibbles (flip_hash (word 1))) p) as [r|] eqn:E.
  - apply strip_spec in E. split.
    + destruct r; [|discriminate]. intros X. apply (inj Some) in X. subst v. exists (flip_hash (word 1)). split; [now rewrite app_nil_r in E|]. exists 1. split; [reflexivity|]. split; [discriminate|]. split; reflexivity.
    + intros (k & -> & l & _ & Z & -> & ->). apply first_slot in Z. subst l. change (be_fixed 32 1) with (word 1) in E. rewrite <- (app_nil_r (nibbles (flip_hash (word 1)))) in E at 1. apply app_inv_head in E. subst r. reflexivity.
  - split; [discriminate|]. intros (k & -> & l & _ & Z & -> & ->). apply first_slot in Z. subst l. change (be_fixed 32 1) with (word 1) in E. pose proof (proj2 (strip_spec (nibbles (flip_hash (word 1))) (nibbles (flip_hash (word 1))) [])) as X. rewrite app_nil_r in X. rewrite (X eq_refl) in E. discriminate.
Qed.
Lemma first_case : state_ok first_state_of /\ plain_accounts first_state_of first_db /\ accounts first_state_of 3 = Some c_account /\ a_incarnation c_account = 1 /\ slots first_state_of 3 1 1 <> 0
  /\ (exists r, is_root flip_hash (storage_content flip_hash first_state_of 3 1) r)
  /\ (forall a b, a < 2 ^ 160 -> b < 2 ^ 160 -> accounts first_state_of a <> None -> accounts first_state_of b <> None -> flip_hash (be_fixed 20 a) = flip_hash (be_fixed 20 b) -> a = b) /\ (forall x, flip_hash x = empty_root -> x = [0x80])
  /\ exists d', stage_hashstate flip_hash least_of first_db = Done d'.
Proof.
  split; [split; [apply root_ok|]|].
  - intros a i l. cbn [slots first_state_of]. destruct (_ && _ && _); reflexivity.
  - split; [exact first_plain|]. split; [reflexivity|]. split; [reflexivity|]. split; [discriminate|]. split; [eexists; exact first_storage_root|]. split; [|split; [exact flip_empty|eexists; vm_compute; reflexivity]].
    intros a b _ _ Ea Eb. destruct (accounts first_state_of a) as [x|] eqn:Xa; [|congruence]. destruct (accounts first_state_of b) as [y|] eqn:Xb; [|congruence]. clear Ea Eb. apply root_accounts in Xa, Xb. destruct Xa as [( -> & _)|( -> & _)], Xb as [( -> & _)|( -> & _)]; intros E; try reflexivity; vm_compute in E; discriminate.
Qed.
