(** The genesis database: what is read back, and concrete cases. *)
From stdpp Require Import gmap.
From Verif Require Import Base BaseFacts RlpSpec RlpModel TxSpec TypesModel TypesSpec TrieLemmas BlockModel BlockSpec BlockProofs CodecLemmas DbTable DbModel DbCases
  BufferModel StateRootSpec StateRootProofs StateRootCases MemRootSpec MemRootModel MemRootCases GenesisSpec GenesisModel GenesisProofs GenesisLemmas.

Section Db.
  Variable keccak : bytes -> bytes.
  Hypothesis Hk : hash_32 keccak.
  Variable visit : gmap N (option account) -> list (N * option account).
  Hypothesis Hv : forall m, account_order m (visit m).
  Variable g : genesis.
  Hypothesis G : genesis_ok g.
  Hypothesis Ne : g_alloc g <> Some [].
  Hypothesis C : no_hash_collision keccak (genesis_state g).
  Lemma read_back bm : exists root h hash d, initialize keccak visit g empty_db = Done (hash, d) /\ is_state_root keccak (genesis_state g) root
    /\ h = with_nonce (genesis_block g root) (rev (be_fixed 8 (g_nonce g))) /\ hash = keccak (RLP (header_item h)) /\ read_header d 0 hash = Done (Some h)
    /\ (forall senders, read_body d 0 hash senders = Done (Some (mkBody [] []))) /\ lookup (d kHeaderNumbers) hash = Some (be_fixed 8 0) /\ lookup (d kConfig) hash = Some (g_config g)
    /\ (forall a, a < 2 ^ 160 -> read_account bm d a None = Done (accounts (genesis_state g) a)).
  Proof.
    destruct (initialized keccak visit g Hk Hv G Ne C bm) as (root & h & hash & d & E & Ro & Eh & Ehash & W & Sm & T1 & _ & T3 & _ & T5 & T6 & T7 & A). exists root, h, hash, d. split; [exact E|]. split; [exact Ro|]. split; [exact Eh|]. split; [exact Ehash|].
    clear Eh Ehash. split; [|split; [|split; [|split]]].
    - unfold read_header, block_key_hash. rewrite T1, single_lookup. destruct (C06_hdr h [] W Sm) as (E1 & E2). rewrite app_nil_r, E1 in E2. rewrite E2. reflexivity.
    - intros senders. unfold read_body, block_key_hash. rewrite T3, single_lookup. assert (D : decode_stored [195; 128; 128; 192] = Done (mkStored 0 0 [], [])) by reflexivity. rewrite D. cbn [obind sb_base sb_count sb_ommers]. unfold read_transactions. change (0 =? 0) with true. cbn [obind].
      destruct senders; [|reflexivity]. unfold read_senders. rewrite T7. reflexivity.
    - now rewrite T5, single_lookup.
    - now rewrite T6, single_lookup.
    - exact A.
  Qed.
  Lemma palindrome : rev (be_fixed 8 (g_nonce g)) = be_fixed 8 (g_nonce g) -> forall root, with_nonce (genesis_block g root) (rev (be_fixed 8 (g_nonce g))) = genesis_block g root.
  Proof using. intros E root. rewrite E. reflexivity. Qed.
  Lemma nonce_reversed hash d : rev (be_fixed 8 (g_nonce g)) <> be_fixed 8 (g_nonce g) -> initialize keccak visit g empty_db = Done (hash, d) ->
    exists h, read_header d 0 hash = Done (Some h) /\ hd_nonce h <> be_fixed 8 (g_nonce g) /\ forall root, h <> genesis_block g root.
  Proof.
    intros P E. destruct (read_back (fun _ => ∅)) as (root & h & hash' & d' & E' & _ & Eh & _ & R & _). rewrite E in E'. assert (EE : hash = hash' /\ d = d') by (injection E'; auto). destruct EE as ( <- & <- ). exists h. split; [exact R|].
    assert (X : hd_nonce h = rev (be_fixed 8 (g_nonce g))) by (rewrite Eh; reflexivity). split; [now rewrite X|]. intros root' F. apply P. rewrite <- X, F. reflexivity.
  Qed.
  Lemma not_canonical hash d : initialize keccak visit g empty_db = Done (hash, d) -> (forall senders, read_block d 0 senders = Done None) /\ read_chain_config d = None.
  Proof.
    intros E. destruct (initialized keccak visit g Hk Hv G Ne C (fun _ => ∅)) as (root & h & hash' & d' & E' & _ & _ & Eh & _ & _ & _ & T2 & _). rewrite E in E'. assert (EE : hash = hash' /\ d = d') by (injection E'; auto). destruct EE as ( <- & <- ).
    assert (L : lookup (d kCanonicalHashes) (block_key 0) = None).
    { rewrite T2. apply single_other. intros K. apply (f_equal (@length N)) in K. unfold block_key in K. rewrite app_length, !be_fixed_length in K. rewrite Eh, (proj1 (Hk _)) in K. discriminate. }
    unfold read_block, read_chain_config. rewrite L. auto.
  Qed.
  Lemma difficulty_read hash d : initialize keccak visit g empty_db = Done (hash, d) -> read_total_difficulty d 0 hash = Done (Some (g_difficulty g)) <-> 0 < g_difficulty g < 128.
  Proof.
    intros E. destruct (initialized keccak visit g Hk Hv G Ne C (fun _ => ∅)) as (root & h & hash' & d' & E' & _ & _ & _ & _ & _ & _ & _ & _ & T4 & _). rewrite E in E'. assert (EE : hash = hash' /\ d = d') by (injection E'; auto). destruct EE as ( <- & <- ).
    assert (Hd : g_difficulty g < 2 ^ 256) by apply G. rewrite <- (difficulty_decodes _ Hd). unfold read_total_difficulty, block_key_hash. rewrite T4, single_lookup. set (dec := decode_u256 _). clearbody dec. split.
    - destruct dec as [[td r]|e| |]; cbn [err_handler obind]; try discriminate. intros F. assert (td = g_difficulty g) as -> by (injection F; auto). eauto.
    - intros (r & -> ). reflexivity.
  Qed.
End Db.
Lemma duplicates keccak visit g d : ~ List.NoDup (map fst (allocations g)) -> initialize keccak visit g d = Throws.
Proof.
  intros D. unfold initialize, write_allocations. unfold allocations in D. destruct (g_alloc g) as [l|]; [|destruct D; constructor]. destruct (b_acc_changes (allocate l) !! 0) as [c|] eqn:E; [|reflexivity]. destruct (Nat.eqb (size c) (length l)) eqn:F; [|reflexivity]. destruct D. now apply (changes_size l c E).
Qed.
Lemma empty_alloc keccak visit g d : g_alloc g = Some [] -> initialize keccak visit g d = Throws.
Proof. intros E. unfold initialize, write_allocations. rewrite E. reflexivity. Qed.

(** Nonce and difficulty as on the main network, a small nonce that reads the same both ways, and a test network's difficulty. *)
Definition main_like : genesis := mkGenesis (Some [(3, 1000); (9, 0); (77, 2 ^ 200)]) [1; 2; 3] None 0x400000000 5000 0 0x42 [123; 125].
Definition quiet : genesis := mkGenesis (Some [(3, 1000)]) [] (Some (be_fixed 32 7)) 1 5000 0 0 [123; 125].
Lemma flip_apart a b : a < 256 -> b < 256 -> flip_hash (be_fixed 20 a) = flip_hash (be_fixed 20 b) -> a = b.
Proof.
  intros Ha Hb. unfold flip_hash. destruct (eqb_spec (be_fixed 20 a) [0x80]) as [E|_]; [apply (f_equal (@length N)) in E; rewrite be_fixed_length in E; discriminate|]. destruct (eqb_spec (be_fixed 20 b) [0x80]) as [E|_]; [apply (f_equal (@length N)) in E; rewrite be_fixed_length in E; discriminate|].
  intros E. apply (f_equal (@tl N)) in E. cbn [tl] in E. apply (f_equal (hd 0)) in E. change 20%nat with (S 19) in E. cbn [be_fixed] in E. rewrite !map_app, !rev_app_distr in E. cbn [map rev app firstn hd] in E. rewrite !N.mod_mod in E by discriminate. rewrite !N.mod_small in E by assumption. exact E.
Qed.
Lemma apart g : (forall a v, In (a, v) (allocations g) -> a < 256) -> no_hash_collision flip_hash (genesis_state g).
Proof.
  intros H. split; [|intros a acc l l' _ Z; now destruct Z].
  assert (B : forall a, accounts (genesis_state g) a <> None -> a < 256).
  { intros a. cbn [accounts genesis_state]. destruct (balance_of (allocations g) a) as [v|] eqn:E; [|congruence]. intros _. revert E H. induction (allocations g) as [|[b w] l IH]; [discriminate|]. cbn [balance_of]. intros E H. destruct (N.eqb_spec b a) as [ -> |_]; [apply (H a w); now left|].
    apply IH; [exact E|]. intros x y I. apply (H x y). now right. }
  intros a b Ha Hb. apply flip_apart; now apply B.
Qed.
Lemma main_like_ok : genesis_ok main_like /\ g_alloc main_like <> Some [] /\ no_hash_collision flip_hash (genesis_state main_like) /\ rev (be_fixed 8 (g_nonce main_like)) <> be_fixed 8 (g_nonce main_like) /\ 128 <= g_difficulty main_like
  /\ accounts (genesis_state main_like) 3 = Some (mkAccount 0 1000 kEmptyHash 0) /\ accounts (genesis_state main_like) 4 = None.
Proof.
  split; [|split; [discriminate|split; [|split; [discriminate|split; [discriminate|split; reflexivity]]]]].
  - split; [repeat constructor; cbn; lia|]. split; [intros a v [E|[E|[E|[]]]]; apply pair_equal_spec in E as ( <- & <- ); split; reflexivity|]. split; [repeat constructor|]. repeat (split; [first [reflexivity|exact I]|]). reflexivity.
  - apply apart. intros a v [E|[E|[E|[]]]]; apply pair_equal_spec in E as ( <- & _ ); reflexivity.
Qed.
Lemma quiet_ok : genesis_ok quiet /\ g_alloc quiet <> Some [] /\ no_hash_collision flip_hash (genesis_state quiet) /\ rev (be_fixed 8 (g_nonce quiet)) = be_fixed 8 (g_nonce quiet) /\ 0 < g_difficulty quiet < 128.
Proof.
  split; [|split; [discriminate|split; [|split; [reflexivity|split; reflexivity]]]].
  - split; [repeat constructor; cbn; lia|]. split; [intros a v [E|[]]; apply pair_equal_spec in E as ( <- & <- ); split; reflexivity|]. split; [constructor|]. split; [reflexivity|]. split; [split; [apply be_fixed_length|apply be_fixed_wf]|]. repeat (split; [reflexivity|]). reflexivity.
  - apply apart. intros a v [E|[]]; apply pair_equal_spec in E as ( <- & _ ); reflexivity.
Qed.
Lemma twice : ~ List.NoDup (map fst (allocations (mkGenesis (Some [(3, 1); (3, 2)]) [] None 1 5000 0 0 []))).
Proof. intros H. inversion H as [|x l Ni _]. apply Ni. now left. Qed.
