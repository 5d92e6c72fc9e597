(** A node with a side chain, a reorganisation and a refused block. *)
From stdpp Require Import gmap.
From Coq Require Import ZArith.
From Verif Require Import Base BaseFacts RlpModel TxModel BlockModel TypesModel ChainModel TrieSpec TrieLemmas StateModel StateSpec StateLemmas MemBufModel MemBufSpec MemRootModel MemRootSpec MemRootLemmas MemRootCases EvmModel EvmSpec EvmCases ProcessorModel ProcessorCases RunSpec RunCodes RunCases BlockchainModel BlockchainSpec ChainBufferModel ChainBufferSpec NodeModel NodeSpec NodeProofs NodeLemmas.

(** A hash with 32 bytes and the right value for the empty string. *)
Definition y_keccak (b : bytes) : bytes := match b with [] => kEmptyHash | _ => be_fixed 32 (N.land (fold_left (fun h x => N.land (h * 257 + x + 1) (N.ones 256)) b 1) (N.ones 256)) end.
Lemma y_keccak_32 : hash_32 y_keccak.
Proof.
  intros [|x b]; [exact (code_hash_32 [])|]. split; [apply be_fixed_length|]. apply be_fixed_wf.
Qed.
Definition y_code : bytes := Eval vm_compute in y_keccak [1].
Definition y_code_of (h : bytes) : bytes := if bytes_eqb h y_code then [1] else [].
(** 100 has a balance; 200 is a contract at incarnation 3, an earlier life of it has left a slot at incarnation 1 *)
Definition y_mem : membuf :=
  mkMem (<[100 := mkAccount 3 10000000 kEmptyHash 0]> (<[200 := mkAccount 1 50 y_code 3]> ∅)) (<[y_code := [1]]> ∅) (<[200 := 2]> ∅)
        (<[(200, 3, 5) := 7]> (<[(200, 1, 6) := 13]> ∅)) ∅ ∅ 0.
Definition y_world : world := world_of y_code_of (mem_reader y_mem).
Definition y_cfg : chain_config := mkCfg 1 kNoProof (repeat (Some 0) 9) None None.
(** the hash of a block is its difficulty and its parent hash *)
Definition y_hash (b : blk content) : bytes := b_difficulty b :: b_parent b.
Definition y_header (parent root : bytes) (difficulty number gas_used : N) : block_header := mkHdr parent [] [99] root [] [1; 2] p_bloom difficulty number 200000 gas_used 0 [] [] [] (Some 7).
Definition y_orders : orders :=
  mkOrders (fun i X => if Nat.even i then elements X else rev (elements X)) (fun _ s => some_order s)
    (fun _ m n => (elements (dom (default ∅ (m_acc_changes m !! n))), elements (dom (default ∅ (m_st_changes m !! n)))))
    (fun _ m => (map_to_list (m_accounts m), slots_at (m_storage m))).
Definition y_ref b w := reference_of y_keccak (fun _ _ _ => 100) (fun _ i => Some i) (fun _ _ => zeros 32) e_interp 1025 (fun _ => [1; 2]) y_cfg b w.
Definition y_run x b := mem_run y_keccak (fun _ _ _ => 100) (fun _ i => Some i) (fun _ _ => zeros 32) e_interp 1025 (fun _ => [1; 2]) y_cfg y_orders x b.
Definition y_insert x b := node_insert_block y_keccak (fun _ _ _ => 100) (fun _ i => Some i) (fun _ _ => zeros 32) e_interp 1025 (fun _ => [1; 2]) y_cfg y_hash (fun _ _ => true) y_orders x b.
Definition y_root_of m : bytes := default [] (mem_root y_keccak (map_to_list (m_accounts m)) (slots_at (m_storage m))).
Definition y_next (m : membuf) (b : blk content) : membuf := match y_run (m, O) b with Some (_, (m', _)) => m' | None => m end.
Definition y_after (w : world) (b : blk content) : world := match y_ref b w with Some (_, _, _, w') => next_world w' | None => w end.

Definition y_genesis : blk content := block_of (y_header [] [] 1 0 0) [] [].
(** one block with both transactions; or two blocks with one each, which together are heavier; and a block with a wrong amount of gas *)
Definition block_b root : blk content := block_of (y_header [1] root 10 1 116816) [p_call; p_create] [].
Definition block_c root : blk content := block_of (y_header [1] root 5 1 63600) [p_call] [].
Definition block_e root : blk content := block_of (y_header [5; 1] root 6 2 53216) [p_create] [].
Definition y_bad : blk content := block_of (y_header [1] [] 100 1 63601) [p_call] [].
Definition m_b := y_next y_mem (block_b []).
Definition m_c := y_next y_mem (block_c []).
Definition m_e := y_next m_c (block_e []).
Definition root_b : bytes := Eval vm_compute in y_root_of m_b.
Definition root_c : bytes := Eval vm_compute in y_root_of m_c.
Definition root_e : bytes := Eval vm_compute in y_root_of m_e.
Definition y_b := block_b root_b.
Definition y_c := block_c root_c.
Definition y_e := block_e root_e.
(** the content of [y_e] with a wrong root *)
Definition y_wrong : blk content := block_of (y_header [5; 1] root_c 7 2 53216) [p_create] [].
Definition y_past (a : N) : bool := false.
Notation y_exec := (reference_exec y_keccak (fun _ _ _ => 100) (fun _ i => Some i) (fun _ _ => zeros 32) e_interp 1025 (fun _ => [1; 2]) y_cfg).
Notation y_valid := (valid_chain y_hash y_exec y_genesis (y_past, y_world)).

Lemma y_orders_ok : orders_ok y_orders.
Proof.
  intros i. cbn [y_orders or_set or_write or_unwind or_root fst snd]. split; [|split; [|split]].
  - intros X. destruct (Nat.even i); [reflexivity|]. symmetry. apply Permutation.Permutation_rev.
  - intros s. apply some_order_ok.
  - intros m n. split; reflexivity.
  - intros m. split; [apply account_order_exists|apply slot_order_exists].
Qed.
Lemma y_acc a : m_accounts y_mem !! a = if a =? 100 then Some (mkAccount 3 10000000 kEmptyHash 0) else if a =? 200 then Some (mkAccount 1 50 y_code 3) else None.
Proof.
  unfold y_mem. cbn [m_accounts]. destruct (N.eqb_spec a 100) as [->|H1]; [apply lookup_insert|]. rewrite lookup_insert_ne by congruence.
  destruct (N.eqb_spec a 200) as [->|H2]; [apply lookup_insert|]. rewrite lookup_insert_ne by congruence. apply lookup_empty.
Qed.
Lemma y_st a i k : m_storage y_mem !! (a, i, k) = m_storage r_mem !! (a, i, k). Proof. reflexivity. Qed.
Lemma y_mem_ok : mem_ok y_keccak y_code_of 1000000 y_mem y_past y_world.
Proof.
  constructor.
  - unfold starts. repeat split; intros; reflexivity.
  - split; [|split].
    + intros a k. cbn [mem_reader read_storage]. rewrite y_st, r_st. now rewrite !andb_false_r.
    + intros a c. cbn [mem_reader read_account read_code]. rewrite y_acc. destruct (a =? 100); [|destruct (a =? 200); [|discriminate]]; intros [= <-]; cbn [a_code_hash a_incarnation].
      * split; [vm_compute; reflexivity|]. split; [congruence|reflexivity].
      * split; [vm_compute; reflexivity|]. split; [intros _; vm_compute; reflexivity|reflexivity].
    + intros a. cbn [mem_reader previous_incarnation]. pose proof (r_prev a) as H. change (m_prev y_mem) with (m_prev r_mem). lia.
  - intros a i k v. rewrite y_st, r_st. destruct (N.eqb_spec a 200) as [->|]; [|discriminate]. intros Hv. left. eexists. split; [rewrite y_acc; reflexivity|]. split; [discriminate|]. cbn [N.eqb Pos.eqb a_incarnation andb] in *.
    destruct (N.eqb_spec i 3) as [->|]; [lia|]. destruct (N.eqb_spec i 1) as [->|]; [lia|discriminate].
  - intros [[a i] k] v. rewrite y_st, r_st. destruct (_ && _); [intros [= <-]; discriminate|]. destruct (_ && _); [intros [= <-]; discriminate|discriminate].
Qed.
Lemma y_coded : coded y_world.
Proof. intros a c. unfold y_world, world_of. cbn [w_acct mem_reader read_account]. rewrite y_acc. destruct (a =? 100); [intros [= <-]; vm_compute; congruence|]. destruct (a =? 200); [|discriminate]. now intros [= <-] _. Qed.

(** ** Checks of a buffer that are checks of the world it holds *)
Definition apart (k : nat) (l : list N) : bool := forallb (fun a => forallb (fun b => (a =? b) || negb (bytes_eqb (y_keccak (be_fixed k a)) (y_keccak (be_fixed k b)))) l) l.
Lemma apart_ok k l : apart k l = true -> forall a b, In a l -> In b l -> y_keccak (be_fixed k a) = y_keccak (be_fixed k b) -> a = b.
Proof.
  unfold apart. rewrite forallb_forall. intros H a b Ha Hb E. specialize (H a Ha). rewrite forallb_forall in H. specialize (H b Hb). destruct (N.eqb_spec a b); [assumption|].
  cbn [orb] in H. apply negb_true_iff in H. rewrite (proj2 (bytes_eqb_eq _ _) E) in H. discriminate.
Qed.
Definition mem_fine (m : membuf) : bool :=
  forallb (fun e => (fst e <? 2 ^ 160) && (a_nonce (snd e) <? 2 ^ 64) && (a_balance (snd e) <? 2 ^ 256)) (map_to_list (m_accounts m))
  && forallb (fun e => (snd (fst e) <? 2 ^ 256) && (snd e <? 2 ^ 256)) (map_to_list (m_storage m))
  && apart 20 (map fst (map_to_list (m_accounts m))) && apart 32 (map (fun e => snd (fst e)) (map_to_list (m_storage m))).
Lemma fine_world room m past w : mem_ok y_keccak y_code_of room m past w -> mem_fine m = true -> world_range w /\ no_world_collision y_keccak w.
Proof.
  intros [(S1 & S2 & _) _ _ _] H. cbn [mem_reader read_account read_storage] in S1, S2. apply andb_true_iff in H as (H & C2). apply andb_true_iff in H as (H & C1). apply andb_true_iff in H as (R1 & R2).
  rewrite forallb_forall in R1, R2.
  assert (A : forall a c, w_acct w a = Some c -> exists acc, In (a, acc) (map_to_list (m_accounts m)) /\ c = acct_of y_code_of acc).
  { intros a c. rewrite S1. destruct (m_accounts m !! a) as [acc|] eqn:E; [|discriminate]. intros [= <-]. exists acc. split; [|reflexivity]. now apply elem_of_list_In, elem_of_map_to_list. }
  assert (B : forall a l, w_current w a l <> 0 -> exists i, In ((a, i, l), w_current w a l) (map_to_list (m_storage m))).
  { intros a l Hn. rewrite S2 in *. destruct (m_accounts m !! a) as [acc|]; [|congruence]. exists (a_incarnation acc). destruct (m_storage m !! (a, a_incarnation acc, l)) as [v|] eqn:E; cbn [default from_option id] in *; [|congruence].
    now apply elem_of_list_In, elem_of_map_to_list. }
  split; split.
  - intros a c Hc. destruct (A a c Hc) as (acc & Hi & ->). specialize (R1 _ Hi). cbn [fst snd] in R1. apply andb_true_iff in R1 as (R1 & R3). apply andb_true_iff in R1 as (R1 & R4). cbn. apply N.ltb_lt in R1, R3, R4. auto.
  - intros a l Hn. destruct (B a l Hn) as (i & Hi). specialize (R2 _ Hi). cbn [fst snd] in R2. apply andb_true_iff in R2 as (R2 & R3). apply N.ltb_lt in R2, R3. auto.
  - intros a b Ha Hb. destruct (w_acct w a) as [ca|] eqn:Ea; [|congruence]. destruct (w_acct w b) as [cb|] eqn:Eb; [|congruence]. destruct (A a ca Ea) as (xa & Ia & _), (A b cb Eb) as (xb & Ib & _).
    apply (apart_ok _ _ C1); [exact (in_map fst _ _ Ia)|exact (in_map fst _ _ Ib)].
  - intros a l l' Hl Hl'. destruct (B a l Hl) as (i & Ii), (B a l' Hl') as (j & Ij).
    apply (apart_ok _ _ C2); [exact (in_map (fun e => snd (fst e)) _ _ Ii)|exact (in_map (fun e => snd (fst e)) _ _ Ij)].
Qed.
Lemma fine_root room m past w : mem_ok y_keccak y_code_of room m past w -> mem_fine m = true -> is_world_root y_keccak w (y_root_of m).
Proof.
  intros Hm Hf. destruct (fine_world _ _ _ _ Hm Hf) as (R & C). destruct (world_root y_keccak y_keccak_32 _ _ _ _ _ _ _ Hm R C (account_order_exists (m_accounts m)) (slot_order_exists (m_storage m))) as (r & E & H).
  unfold y_root_of. now rewrite E.
Qed.

(** ** Steps *)
Definition contracts (m : membuf) : list N := map fst (filter (fun e => negb (a_incarnation (snd e) =? 0)) (map_to_list (m_accounts m))).
Definition ops_fine (ops : list op) : bool := (N.of_nat (length ops) <=? 100) && forallb (fun c => bytes_eqb (y_code_of (y_keccak c)) c) (flat_map op_code ops).
Definition step_fine (m : membuf) (w : world) (b : blk content) : bool :=
  match y_ref b w with Some (_, kOk, ops, w') => ops_fine ops && forallb (fun a => contract_in w' a && w_exists w' a) (contracts m) | _ => false end.
Lemma ops_ok ops : ops_fine ops = true -> N.of_nat (length ops) <= 100 /\ codes_ok y_keccak y_code_of ops.
Proof.
  intros H. apply andb_true_iff in H as (H1 & H2). split; [now apply N.leb_le|]. split; [reflexivity|]. split; [vm_compute; reflexivity|]. intros c Hc. rewrite forallb_forall in H2. apply bytes_eqb_eq. now apply H2.
Qed.
Lemma step room m past w b : mem_ok y_keccak y_code_of (100 + room) m past w -> coded w -> (forall a, past a = false) -> step_fine m w b = true ->
  exists rs ops w', y_ref b w = Some (rs, kOk, ops, w') /\ N.of_nat (length ops) <= 100 /\ codes_ok y_keccak y_code_of ops /\ incarnations_kept past w w' /\ y_after w b = next_world w'
    /\ (forall a, next_past past w w' a = false) /\ mem_ok y_keccak y_code_of room (y_next m b) (next_past past w w') (y_after w b) /\ coded (y_after w b).
Proof.
  intros Hm Hc Hp Hf. unfold step_fine, y_after in *. destruct (y_ref b w) as [[[[rs v] ops] w']|] eqn:E; [|discriminate]. destruct v; try discriminate. apply andb_true_iff in Hf as (Ho & Hf). destruct (ops_ok ops Ho) as (L & C).
  assert (K : forall a, contract_in w a = true -> contract_in w' a = true /\ w_exists w' a = true).
  { intros a Ha. pose proof Ha as Ha'. rewrite (MemBufProofs.contract_db y_code_of m w a (mo_starts _ _ _ _ _ _ Hm)) in Ha'. unfold db_contract in Ha'. cbn [mem_reader read_account] in Ha'. destruct (m_accounts m !! a) as [acc|] eqn:Ea; [|discriminate].
    rewrite forallb_forall in Hf. apply andb_true_iff. apply Hf. apply in_map_iff. exists (a, acc). split; [reflexivity|]. apply filter_In. split; [now apply elem_of_list_In, elem_of_map_to_list|exact Ha']. }
  assert (IK : incarnations_kept past w w') by (split; [intros a Ha _; now apply K|intros a Ha; now rewrite Hp in Ha]).
  destruct (executed_and_written y_keccak y_code_of _ _ _ _ _ _ _ _ _ _ _ (100 + room) m past (or_set y_orders O) w rs ops w' Hm Hc ltac:(lia) C (proj1 (y_orders_ok O)) E IK) as (s & Er & Hn & Hw).
  exists rs, ops, w'. split; [reflexivity|]. split; [exact L|]. split; [exact C|]. split; [exact IK|]. split; [reflexivity|]. split.
  - intros a. unfold next_past. rewrite Hp. cbn [orb]. destruct (contract_in w a) eqn:Ha; [|reflexivity]. now rewrite (proj2 (K a Ha)).
  - split; [|exact Hn]. unfold y_next, y_run, mem_run. rewrite Er. destruct (or_write y_orders O s) as [so oo] eqn:Eo. eapply mem_ok_less; [|apply Hw]; [lia|].
    pose proof (proj1 (proj2 (y_orders_ok O)) s) as Hx. rewrite Eo in Hx. exact Hx.
Qed.

(** ** The worlds *)
Notation y_w_c := (y_after y_world y_c).
Notation m_b' := (y_next y_mem y_b).
Notation m_c' := (y_next y_mem y_c).
Notation m_e' := (y_next m_c' y_e).
Notation m_w' := (y_next m_c' y_wrong).
Definition y_root (s : (N -> bool) * world) : bytes :=
  let n := ac_balance (w_get (snd s) 99) in
  if n =? 0 then y_root_of y_mem else if n =? 2000000000000350448 then root_b else if n =? 2000000000000190800 then root_c else root_e.
Lemma fine_steps : step_fine y_mem y_world y_b && step_fine y_mem y_world y_c && step_fine m_c' y_w_c y_e && step_fine m_c' y_w_c y_wrong = true.
Proof. vm_compute. reflexivity. Qed.
Lemma fine_mems : forallb mem_fine [y_mem; m_b'; m_c'; m_e'; m_w'] = true.
Proof. vm_compute. reflexivity. Qed.
Lemma fine_roots : y_root_of m_b' = root_b /\ y_root_of m_c' = root_c /\ y_root_of m_e' = root_e /\ y_root_of m_w' = root_e.
Proof. vm_compute. repeat split. Qed.
Definition miner (w : world) : N := ac_balance (w_get w 99).
Lemma fine_balances : miner y_world = 0 /\ miner (y_after y_world y_b) = 2000000000000350448 /\ miner y_w_c = 2000000000000190800 /\ miner (y_after y_w_c y_e) = 4000000000000350448 /\ miner (y_after y_w_c y_wrong) = 4000000000000350448.
Proof. vm_compute. repeat split. Qed.
Lemma bad_step : match y_ref y_bad y_world with Some (_, kWrongBlockGas, ops, _) => ops_fine ops | _ => false end = true.
Proof. vm_compute. reflexivity. Qed.
Lemma steps : step_fine y_mem y_world y_b = true /\ step_fine y_mem y_world y_c = true /\ step_fine m_c' y_w_c y_e = true /\ step_fine m_c' y_w_c y_wrong = true.
Proof. pose proof fine_steps as H. apply andb_true_iff in H as (H & H4). apply andb_true_iff in H as (H & H3). apply andb_true_iff in H as (H1 & H2). auto. Qed.

(** What every valid chain over the blocks is. *)
Definition y_calls : list (blk content * bool * bool) := [(y_b, true, true); (y_c, true, true); (y_e, true, true); (y_bad, true, false); (y_wrong, true, false)].
Definition y_h : list call := map (fun '(b, check, ok) => mkCall b check ok) y_calls.
Definition y_blocks : list (blk content) := involved y_genesis y_h.
Inductive placed : list (blk content) -> membuf -> world -> Prop :=
| placed_g : placed [y_genesis] y_mem y_world
| placed_b : placed [y_b; y_genesis] m_b' (y_after y_world y_b)
| placed_c : placed [y_c; y_genesis] m_c' y_w_c
| placed_e : placed [y_e; y_c; y_genesis] m_e' (y_after y_w_c y_e)
| placed_w : placed [y_wrong; y_c; y_genesis] m_w' (y_after y_w_c y_wrong).
Definition kept (room : N) (t : list (blk content)) (past : N -> bool) (w : world) : Prop :=
  exists m, placed t m w /\ mem_ok y_keccak y_code_of room m past w /\ coded w /\ forall a, past a = false.
Lemma placed_length t m w : placed t m w -> (length t <= 3)%nat.
Proof. intros H. destruct H; apply Nat.leb_le; reflexivity. Qed.
Lemma exec_step room m past w b past' w' : mem_ok y_keccak y_code_of (100 + room) m past w -> coded w -> (forall a, past a = false) -> step_fine m w b = true -> y_exec (past, w) b = Some (past', w') ->
  w' = y_after w b /\ mem_ok y_keccak y_code_of room (y_next m b) past' (y_after w b) /\ coded (y_after w b) /\ forall a, past' a = false.
Proof.
  intros Hm Hc Hp Hf He. destruct (step room m past w b Hm Hc Hp Hf) as (rs & ops & w1 & E & _ & _ & _ & Ea & En & Hm' & Hc'). unfold reference_exec in He. cbn [fst snd] in He. change (reference_of _ _ _ _ _ _ _ _ b w) with (y_ref b w) in He. rewrite E in He.
  apply (inj Some) in He. apply pair_equal_spec in He as (<- & <-). split; [now rewrite Ea|]. split; [exact Hm'|]. split; [exact Hc'|exact En].
Qed.
Lemma bad_exec past : y_exec (past, y_world) y_bad = None.
Proof. pose proof bad_step as H. unfold reference_exec. cbn [fst snd]. change (reference_of _ _ _ _ _ _ _ _ y_bad y_world) with (y_ref y_bad y_world). destruct (y_ref y_bad y_world) as [[[[rs v] ops] w]|]; [|discriminate]. destruct v; try discriminate. reflexivity. Qed.
Opaque y_after y_next y_mem y_world.
(** which block goes on which *)
Lemma follows p t m w b : placed (p :: t) m w -> In b y_blocks -> b_number b = b_number p + 1 -> b_parent b = y_hash p ->
  (t = [] /\ m = y_mem /\ w = y_world /\ p = y_genesis /\ (b = y_b \/ b = y_c \/ b = y_bad)) \/ (t = [y_genesis] /\ m = m_c' /\ w = y_w_c /\ p = y_c /\ (b = y_e \/ b = y_wrong)).
Proof.
  intros Hp Hb Hn Ha. remember (p :: t) as pt eqn:Ept. destruct Hp; injection Ept as Ep Et; subst p t; destruct Hb as [<-|[<-|[<-|[<-|[<-|[<-|[]]]]]]]; try (exfalso; discriminate Ha); try (exfalso; discriminate Hn);
    [left|left|left|right|right]; (split; [reflexivity|]; split; [reflexivity|]; split; [reflexivity|]; split; [reflexivity|]).
  - left. reflexivity.
  - right. left. reflexivity.
  - right. right. reflexivity.
  - left. reflexivity.
  - right. reflexivity.
Qed.
Lemma chains t s d : y_valid t s d -> Forall (fun x => In x y_blocks) t -> kept (1000000 - 100 * N.of_nat (length t)) t (fst s) (snd s).
Proof.
  induction 1 as [|p t [past w] d b [past' w'] Hv IH Hn Hp He]; intros HF.
  - exists y_mem. split; [constructor|]. split; [eapply mem_ok_less; [|exact y_mem_ok]; lia|]. split; [exact y_coded|reflexivity].
  - apply List.Forall_cons_iff in HF as (Hb & HF). destruct (IH HF) as (m & Hpl & Hm & Hc & Hpast). cbn [fst snd] in *. destruct steps as (F1 & F2 & F3 & F4).
    pose proof (placed_length _ _ _ Hpl) as L. cbn [length] in L.
    assert (Hm' : mem_ok y_keccak y_code_of (100 + (1000000 - 100 * N.of_nat (length (b :: p :: t)))) m past w) by (eapply mem_ok_less; [|exact Hm]; cbn [length]; lia). clear Hm.
    destruct (follows p t m w b Hpl Hb Hn Hp) as [(-> & -> & -> & -> & [->|[->| ->]])|(-> & -> & -> & -> & [->| ->])].
    + destruct (exec_step _ _ _ _ _ _ _ Hm' Hc Hpast F1 He) as (-> & K1 & K2 & K3). eexists. split; [apply placed_b|]. auto.
    + destruct (exec_step _ _ _ _ _ _ _ Hm' Hc Hpast F2 He) as (-> & K1 & K2 & K3). eexists. split; [apply placed_c|]. auto.
    + rewrite bad_exec in He. discriminate He.
    + destruct (exec_step _ _ _ _ _ _ _ Hm' Hc Hpast F3 He) as (-> & K1 & K2 & K3). eexists. split; [apply placed_e|]. auto.
    + destruct (exec_step _ _ _ _ _ _ _ Hm' Hc Hpast F4 He) as (-> & K1 & K2 & K3). eexists. split; [apply placed_w|]. auto.
Qed.
Lemma y_executable : executable y_keccak y_code_of (fun _ _ _ => 100) (fun _ i => Some i) (fun _ _ => zeros 32) e_interp 1025 (fun _ => [1; 2]) y_cfg y_hash y_genesis (y_past, y_world) y_blocks 100.
Proof.
  intros p t past w d b Hv HF Hb Hn Hp. destruct (chains _ _ _ Hv HF) as (m & Hpl & Hm & Hc & Hpast). cbn [fst snd] in *. destruct steps as (F1 & F2 & F3 & F4).
  pose proof (placed_length _ _ _ Hpl) as L. cbn [length] in L.
  assert (Hm' : mem_ok y_keccak y_code_of (100 + 0) m past w) by (eapply mem_ok_less; [|exact Hm]; cbn [length]; lia). clear Hm.
  assert (G : forall b, step_fine m w b = true -> exists rs v ops w', y_ref b w = Some (rs, v, ops, w') /\ N.of_nat (length ops) <= 100 /\ codes_ok y_keccak y_code_of ops /\ (v = kOk -> incarnations_kept past w w')).
  { intros x Fx. destruct (step 0 m past w x Hm' Hc Hpast Fx) as (rs & ops & w' & E1 & E2 & E3 & E4 & _). exists rs, kOk, ops, w'. auto. }
  destruct (follows p t m w b Hpl Hb Hn Hp) as [(-> & -> & -> & -> & [->|[->| ->]])|(-> & -> & -> & -> & [->| ->])]; [now apply G|now apply G| |now apply G|now apply G].
  pose proof bad_step as H. change (reference_of _ _ _ _ _ _ _ _ y_bad y_world) with (y_ref y_bad y_world). destruct (y_ref y_bad y_world) as [[[[rs v] ops] w]|]; [|discriminate H]. destruct v; try discriminate H.
  destruct (ops_ok ops H) as (E1 & E2). eexists _, _, ops, _. split; [reflexivity|]. split; [exact E1|]. split; [exact E2|]. intros X. discriminate X.
Qed.
Lemma y_rooted : rooted y_keccak (fun _ _ _ => 100) (fun _ i => Some i) (fun _ _ => zeros 32) e_interp 1025 (fun _ => [1; 2]) y_cfg y_hash y_genesis (y_past, y_world) y_root y_blocks.
Proof.
  intros t past w d Hv HF. destruct (chains _ _ _ Hv HF) as (m & Hpl & Hm & Hc & Hpast). cbn [fst snd] in *.
  assert (Hf : mem_fine m = true).
  { pose proof fine_mems as H. rewrite forallb_forall in H. apply H. destruct Hpl; [left|right; left|do 2 right; left|do 3 right; left|do 4 right; left]; reflexivity. }
  destruct (fine_world _ _ _ _ Hm Hf) as (R & C). split; [exact R|]. split; [exact C|].
  assert (E : y_root (past, w) = y_root_of m).
  { destruct fine_balances as (B1 & B2 & B3 & B4 & B5). destruct fine_roots as (R1 & R2 & R3 & R4). unfold y_root. cbn [snd]. change (ac_balance (w_get w 99)) with (miner w).
    destruct Hpl; [rewrite B1|rewrite B2|rewrite B3|rewrite B4|rewrite B5]; cbn [N.eqb Pos.eqb]; [reflexivity|now rewrite R1|now rewrite R2|now rewrite R3|now rewrite R4]. }
  rewrite E. eapply fine_root; [exact Hm|exact Hf].
Qed.
(** ** The history *)
Notation y_run_mem := (mem_run y_keccak (fun _ _ _ => 100) (fun _ i => Some i) (fun _ _ => zeros 32) e_interp 1025 (fun _ => [1; 2]) y_cfg y_orders).
Notation y_history := (n_history y_hash (fun _ _ => true) y_run_mem (mem_undo y_orders) (mem_state_root y_keccak y_orders) y_genesis (y_mem, O)).
Definition y_go (l : list (blk content * bool * bool)) : option (node (P := content) (T := store)) :=
  fold_left (fun c '(b, check, ok) =>
    match c with
    | None => None
    | Some c =>
      if (b_number b <? 2 ^ 64) && negb (bool_decide (canonical_hash (fst c) (b_number b) = Some (y_hash b))) then
        match y_insert c b check with
        | Done (ok', c') => if Bool.eqb ok ok' then Some c' else None
        | _ => None
        end
      else None
    end) l (Some (node_start y_hash y_genesis y_mem)).
Lemma y_go_history l c : y_go l = Some c -> y_history (map (fun '(b, check, ok) => mkCall b check ok) l) c.
Proof.
  revert c. induction l as [|[[b check] ok] l IH] using rev_ind; intros c.
  - intros [= <-]. constructor.
  - unfold y_go. rewrite fold_left_app. fold (y_go l). cbn [fold_left]. destruct (y_go l) as [c0|]; [|discriminate].
    destruct ((b_number b <? 2 ^ 64) && _) eqn:E; [|discriminate].
    apply andb_true_iff in E as [E1 E2]. apply N.ltb_lt in E1. apply negb_true_iff, bool_decide_eq_false in E2.
    destruct (y_insert c0 b check) as [[ok' c']| |] eqn:Ei; try discriminate.
    destruct (Bool.eqb ok ok') eqn:Eo; [|discriminate]. apply eqb_prop in Eo as <-. intros [= <-].
    rewrite map_app. cbn [map]. eapply n_history_call; [now apply IH| |exact Ei]. split; assumption.
Qed.
Definition y_seen (x : node (P := content) (T := store)) := (c_canonical (fst x), map (fun a => a_balance <$> m_accounts (fst (snd x)) !! a) [100; 200; 300; 99]).
Lemma y_final : y_seen <$> y_go y_calls = Some ([[1]; [5; 1]; [6; 5; 1]], [Some 8831770; Some 60; Some 20; Some 4000000000000350448]).
Proof. vm_compute. reflexivity. Qed.
Lemma y_no_collision : no_collision y_hash y_blocks.
Proof.
  intros a b Ha Hb. destruct Ha as [<-|[<-|[<-|[<-|[<-|[<-|[]]]]]]]; destruct Hb as [<-|[<-|[<-|[<-|[<-|[<-|[]]]]]]]; intros E; try reflexivity; discriminate E.
Qed.
Lemma y_no_overflow : no_overflow y_genesis y_h.
Proof. split; vm_compute; reflexivity. Qed.
(** a block becomes canonical, another stays on the side, a third one on it reorganises; one with a wrong amount of gas and one with a wrong state root are refused *)
Lemma y_witness : exists c m i, y_history y_h (c, (m, i)) /\ c_canonical c = [y_hash y_genesis; y_hash y_c; y_hash y_e] /\ map k_ok y_h = [true; true; true; false; false]
  /\ map (fun a => a_balance <$> m_accounts m !! a) [100; 200; 300; 99] = [Some 8831770; Some 60; Some 20; Some 4000000000000350448].
Proof.
  pose proof y_final as H. destruct (y_go y_calls) as [[c [m i]]|] eqn:E; [|discriminate H]. exists c, m, i. split; [exact (y_go_history y_calls _ E)|].
  cbn [fmap option_fmap option_map y_seen fst snd] in H. apply (inj Some) in H. apply pair_equal_spec in H as (H1 & H2). split; [exact H1|]. split; [reflexivity|exact H2].
Qed.
