(** Concrete cases for the theorems about the runner of the consensus tests. *)
From Coq Require Import Strings.String.
From stdpp Require Import gmap.
From Verif Require Import Base BaseFacts RlpModel TypesModel UtilModel UtilSpec UtilProofs TxModel TxSpec ChainModel DbModel FarmModel StateModel MemBufModel ConsensusSpec ConsensusModel ConsensusProofs ConsensusProofs2 ConsensusProofs3 KeccakModel.
Open Scope list_scope.
Open Scope N_scope.

Lemma revision_two c b a : (forall n, n < 5 -> revision c n = b) -> (forall n, 5 <= n -> revision c n = a) -> forall n, revision c n = if n <? 5 then b else a.
Proof. intros L H n. destruct (N.ltb_spec n 5); auto. Qed.
Theorem networks : Forall (fun '(name, before, after, muir, dao) =>
  exists c, network_config (str name) = Some c /\ cfg_chain_id c = 1 /\ cfg_seal_engine c = kNoProof /\ cfg_muir_glacier c = muir /\ cfg_dao_block c = dao /\ forall n, revision c n = if n <? 5 then before else after) network_table
  /\ forall name, network_config name <> None -> In name (map (fun '(s, _, _, _, _) => str s) network_table).
Proof.
  split.
  - unfold network_table. repeat constructor; (eexists; split; [vm_compute; reflexivity|]; repeat (split; [reflexivity|]); intros n;
      cbn [revision revision_scan cfg_fork_blocks nth]; unfold revision; cbn -[N.leb N.ltb]; destruct (N.ltb_spec n 5);
      repeat match goal with |- context [?x <=? n] => first [replace (x <=? n) with true by (symmetry; apply N.leb_le; lia)|replace (x <=? n) with false by (symmetry; apply N.leb_gt; lia)] end; reflexivity).
  - intros name H. change (map (fun '(s, _, _, _, _) => str s) network_table) with (map fst kNetworkConfig). unfold network_config in H. destruct (find _ _) as [e|] eqn:F; [|easy].
    apply find_some in F as (I & E). apply bytes_eqb_eq in E. subst name. now apply in_map.
Qed.

Definition hash256 (b : bytes) : bytes := default [] (keccak256 b).
(** A section with two accounts, one of them with code and a slot. *)
Definition address1 : bytes := str "0x1000000000000000000000000000000000000001"%string.
Definition address2 : bytes := str "1000000000000000000000000000000000000aB2"%string.
Definition two_accounts : list (bytes * json_account) :=
  [(address1, mkJson (str "0x0a"%string) (str "0x"%string) (str "0x6000"%string) [(str "0x01"%string, str "0x02"%string)]);
   (address2, mkJson (str "0x"%string) (str "0x0005"%string) (str "0x"%string) [])].
Lemma says_n n s b : from_hex s = Some b -> (length b <= n)%nat -> says_number n s (be_to_N b).
Proof. intros H L. apply from_hex_spec in H. now exists b. Qed.
Lemma says_a s b : from_hex s = Some b -> length b = 20%nat -> says_address s (be_to_N b).
Proof. intros H L. apply from_hex_spec in H. now exists b. Qed.
Ltac number := eexists; eapply says_n; [vm_compute; reflexivity|vm_compute; lia].
Lemma two_accounts_ok : section_ok two_accounts.
Proof.
  split.
  - exists [be_to_N (0x10 :: zeros 18 ++ [1]); be_to_N (0x10 :: zeros 17 ++ [0x0a; 0xb2])]. split.
    + constructor; [apply says_a; [vm_compute; reflexivity|reflexivity]|]. constructor; [apply says_a; [vm_compute; reflexivity|reflexivity]|constructor].
    + constructor; [intros [H|[]]; vm_compute in H; discriminate|]. constructor; [easy|constructor].
  - intros s e [[= <- <-]|[[= <- <-]|[]]]; (split; [number|]; split; [number|]; split; [eexists; apply from_hex_spec; vm_compute; reflexivity|]).
    + split; [exists [be_to_N [1]]; split; [constructor; [apply says_n; [vm_compute; reflexivity|cbn; lia]|constructor]|constructor; [easy|constructor]]|].
      intros s v [[= <- <-]|[]]. exists (be_to_N [2]). split; [apply says_n; [vm_compute; reflexivity|cbn; lia]|discriminate].
    + split; [exists []; split; constructor|intros s v []].
Qed.
Lemma two_accounts_apart keccak : keccak [0x60; 0] <> keccak [] -> keccak [0x60; 0] <> kEmptyHash -> codes_apart keccak two_accounts.
Proof.
  intros N1 N2. assert (C : forall s e c, In (s, e) two_accounts -> hex_denotes (j_code e) c -> c = [0x60; 0] \/ c = []).
  { intros s e c [Q|[Q|[]]] H; injection Q as <- <-; apply from_hex_spec in H; vm_compute in H; injection H as <-; [now left|now right]. }
  intros s e c I H. split.
  - intros Q. destruct (C s e c I H) as [->| ->]; [now contradiction N2|reflexivity].
  - intros s' e' c' I' H' Q. destruct (C s e c I H) as [->| ->], (C s' e' c' I' H') as [->| ->]; try reflexivity; [now contradiction N1|now contradiction N1].
Qed.
Lemma two_accounts_apart_keccak : codes_apart (hash256) two_accounts.
Proof. apply two_accounts_apart; intros H; vm_compute in H; discriminate. Qed.
(** A wrong slot, a wrong balance, a missing and an additional account are found. *)
Definition with_two (f : membuf -> out bool) : out bool := do m := init_pre_state (fun c => c) mem_empty two_accounts in f m.
Definition with_first (e : json_account) : list (bytes * json_account) := (address1, e) :: tl two_accounts.
Lemma wrong_states_found :
  with_two (fun m => post_check m two_accounts) = Done true
  /\ with_two (fun m => post_check m (with_first (mkJson (str "0x0a"%string) (str "0x"%string) (str "0x6000"%string) [(str "0x01"%string, str "0x03"%string)]))) = Done false
  /\ with_two (fun m => post_check m (with_first (mkJson (str "0x0a"%string) (str "0x"%string) (str "0x6000"%string) []))) = Done false
  /\ with_two (fun m => post_check m (with_first (mkJson (str "0x0b"%string) (str "0x"%string) (str "0x6000"%string) [(str "0x01"%string, str "0x02"%string)]))) = Done false
  /\ with_two (fun m => post_check m (with_first (mkJson (str "0x0a"%string) (str "0x"%string) (str "0x60"%string) [(str "0x01"%string, str "0x02"%string)]))) = Done false
  /\ with_two (fun m => post_check m (tl two_accounts)) = Done false
  /\ post_check mem_empty two_accounts = Done false.
Proof. repeat (split; [vm_compute; reflexivity|]). vm_compute; reflexivity. Qed.

(** One address spelled in two ways: the account at another address is not looked at. *)
Definition plain : json_account := mkJson [] [] [] [].
Definition spelled_twice : list (bytes * json_account) := [(address1, plain); (skipn 2 address1, plain)].
Definition two_plain : membuf := mkMem {[be_to_N (0x10 :: zeros 18 ++ [1]) := account_default; 7 := mkAccount 0 99 kEmptyHash 0]} ∅ ∅ ∅ ∅ ∅ 0.
Lemma spelled_twice_passes : slots_ok two_plain /\ post_check two_plain spelled_twice = Done true /\ m_accounts two_plain !! 7 = Some (mkAccount 0 99 kEmptyHash 0)
  /\ ~ exists s e, In (s, e) spelled_twice /\ says_address s 7.
Proof.
  split; [intros k v H; cbn in H; now rewrite lookup_empty in H|]. split; [vm_compute; reflexivity|]. split; [vm_compute; reflexivity|].
  intros (s & e & [P|[P|[]]] & b & H & _ & Q); injection P as <- <-; apply from_hex_spec in H; vm_compute in H; injection H as <-; vm_compute in Q; discriminate.
Qed.

(** A transaction signed for chain 1, which is no transaction before EIP-155. The key is one of zeros, whatever was signed. *)
Definition zero_key : bytes -> bytes -> bool -> option bytes := fun _ _ _ => Some (4 :: zeros 64).
Definition signed155 : transaction := mkTx kLegacy 1 2 2 60000 (Some (repeat 1 20)) 4 [0; 5] false (Some 1) 6 7 [] None.
Definition signed155_hex : bytes := str "0x"%string ++ to_hex (encode_tx signed155).
Definition zero_sender : bytes := str "3f17f1962b36e491b30a40b2405849e597ba5fb5"%string.
Lemma hex_is s b : from_hex s = Some b -> forall c, hex_denotes s c -> c = b.
Proof. intros H c Q. apply from_hex_spec in Q. congruence. Qed.
Lemma signed155_case :
  (forall b, hex_denotes signed155_hex b -> blen b < 2 ^ 64 /\ decode_tx b <> UB)
  /\ transaction_test (hash256) zero_key signed155_hex [(str "Frontier"%string, None); (str "Homestead"%string, None); (str "EIP158"%string, Some zero_sender); (str "London"%string, Some zero_sender)] = Done true
  /\ transaction_test (hash256) zero_key signed155_hex [(str "Homestead"%string, Some zero_sender)] = Done false
  /\ transaction_test (hash256) zero_key signed155_hex [(str "London"%string, None)] = Done false
  /\ transaction_test (hash256) zero_key (signed155_hex ++ str "00"%string) [(str "London"%string, None)] = Done true.
Proof.
  split. { intros b H. rewrite (hex_is signed155_hex (encode_tx signed155) ltac:(vm_compute; reflexivity) b H). split; vm_compute; [reflexivity|discriminate]. }
  repeat (split; [vm_compute; reflexivity|]). vm_compute; reflexivity.
Qed.
(** The expected sender spelled with a prefix; a network that is not known; a string on which the decoder reads past its end. *)
Theorem transaction_refuted :
  (exists a, accepted (hash256) zero_key signed155_hex (mkCfg 1 kNoProof (forks [0; 0; 0; 0; 0; 0; 0; 0; 0]) (Some 0) None) a /\ hex_denotes (str "0x"%string ++ zero_sender) a)
  /\ transaction_test (hash256) zero_key signed155_hex [(str "London"%string, Some (str "0x"%string ++ zero_sender))] = Done false
  /\ (forall keccak recover s, transaction_test keccak recover (str "c3808080"%string) [(str "London"%string, s)] = Undefined)
  /\ (forall keccak recover s, transaction_test keccak recover signed155_hex [(str "Paris"%string, s)] = Throws).
Proof.
  split; [|split; [vm_compute; reflexivity|split; intros; vm_compute; reflexivity]].
  exists (skipn 12 (hash256 (zeros 64))). split; [|apply from_hex_spec; vm_compute; reflexivity].
  exists (encode_tx signed155), signed155. split; [apply from_hex_spec; vm_compute; reflexivity|]. split; [vm_compute; reflexivity|]. split; vm_compute; reflexivity.
Qed.
Lemma status_case : failures [Some [Passes; Fails; Skips]; None; Some [Fails; Passes]] = 2 /\ exit_status (ran [Some [Passes; Fails; Skips]; None; Some [Fails; Passes]]) = Done (Some 2).
Proof. split; vm_compute; reflexivity. Qed.
Theorem spelled_twice_refuted : exists (m : membuf) expected, (forall k v, m_storage m !! k = Some v -> v <> 0 /\ v < 2 ^ 256) /\ post_check m expected = Done true
  /\ exists a acc, m_accounts m !! a = Some acc /\ ~ exists s e, In (s, e) expected /\ says_address s a.
Proof. destruct spelled_twice_passes as (A & B & C & D). exists two_plain, spelled_twice. split; [exact A|]. split; [exact B|]. exists 7, (mkAccount 0 99 kEmptyHash 0). exact (conj C D). Qed.
