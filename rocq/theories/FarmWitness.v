(** The farm: concrete chains that wait for their senders. *)
From Coq Require Import Strings.String.
From Verif Require Import Base BaseFacts RlpSpec EcdsaModel TxModel TxSpec BlockModel BlockSpec ChainModel DbTable DbModel DbSpec DbProofs DbBlockProofs DbCases EtlModel EtlSpec EtlLemmas FarmModel FarmSpec.
Open Scope list_scope.
Open Scope N_scope.

Definition toy_keccak (x : bytes) : bytes := be_fixed 32 (be_to_N x).
Definition toy_recover (h s : bytes) (p : bool) : option bytes := Some (4 :: h ++ s).
Lemma toy_hash x : List.length (toy_keccak x) = 32%nat.
Proof. apply be_fixed_length. Qed.
Lemma toy_key h s p k : toy_recover h s p = Some k -> exists r, k = 4 :: r.
Proof. intros E. injection E as <-. eauto. Qed.

Definition toy_cfg : chain_config := mkCfg 1 kNoProof [] None None.
Definition toy_tx (nonce : N) : transaction := mkTx kLegacy nonce 2 2 60000 (Some (repeat 1 20)) 4 [0; 5] false None 6 7 [] None.
Definition toy_sender (t : transaction) : bytes := match recover_sender toy_keccak toy_recover t with Some a => a | None => [] end.
Definition toy_block (n h : N) (txs : list transaction) : chain_block := mkChainBlock n (repeat h 32) txs (map toy_sender txs).
Definition with_progress (d : database) (s : bytes) (n : N) : database := put d kSyncStageProgress s (be_fixed 8 n).
Definition with_block (d : database) (n h base : N) (txs : list transaction) : database :=
  put (put (fold_left (fun d p => put d kEthTx (be_fixed 8 (base + N.of_nat (fst p))) (wire_tx (snd p))) (combine (seq 0 (List.length txs)) txs) d)
    kCanonicalHashes (be_fixed 8 n) (repeat h 32)) kBlockBodies (be_fixed 8 n ++ repeat h 32) (RLP (stored_item (mkStored base (N.of_nat (List.length txs)) []))).

(** Two blocks, with one and two transactions. *)
Definition chain_a : list chain_block := [toy_block 1 9 [toy_tx 1]; toy_block 2 7 [toy_tx 2; toy_tx 3]].
Definition db_a : database := with_block (with_block (with_progress empty_db kBlockBodiesKey 2) 1 9 5 [toy_tx 1]) 2 7 6 [toy_tx 2; toy_tx 3].
(** An empty block, then one with a transaction. *)
Definition chain_b : list chain_block := [toy_block 1 9 []; toy_block 2 7 [toy_tx 2]].
Definition db_b : database := with_block (with_block (with_progress empty_db kBlockBodiesKey 2) 1 9 5 []) 2 7 6 [toy_tx 2].

Lemma waits_a max : 2 <= max -> max < 100 -> waiting_chain toy_keccak toy_recover db_a toy_cfg max 1 chain_a.
Proof.
  intros L0 L1. constructor.
  - unfold db_a, with_block, with_progress. cbn [fold_left combine seq List.length]. repeat apply put_wf. apply empty_wf.
  - discriminate.
  - intros [|[|[|i]]] b E; try discriminate; injection E as <-; reflexivity.
  - reflexivity.
  - reflexivity.
  - intros b [<-|[<-|[]]]; reflexivity.
  - exists []. vm_compute. reflexivity.
  - intros b [<-|[<-|[]]]; eexists; (split; [vm_compute; reflexivity|reflexivity]).
  - intros k v I. assert (H : db_a kBlockBodies = [(block_key_hash 1 (repeat 9 32), RLP (stored_item (mkStored 5 1 []))); (block_key_hash 2 (repeat 7 32), RLP (stored_item (mkStored 6 2 [])))]) by (vm_compute; reflexivity). rewrite H in I. destruct I as [E|[E|[]]]; apply pair_equal_spec in E as (<- & _); [exists 1, (repeat 9 32)|exists 2, (repeat 7 32)]; repeat split; reflexivity.
  - intros b t [<-|[<-|[]]] It; cbn [b_txs toy_block] in It; repeat (destruct It as [<-|It]; [split; [reflexivity|discriminate]|]); destruct It.
  - intros b [<-|[<-|[]]]; repeat constructor.
  - intros b [<-|[<-|[]]]; cbn; lia.
  - change (2 ^ 32) with 4294967296. lia.
  - intros k v [].
  - reflexivity.
  - reflexivity.
  - change (2 ^ 64) with 18446744073709551616. cbn [List.length chain_a]. lia.
Qed.
Lemma waits_b max : 2 <= max -> max < 100 -> waiting_chain toy_keccak toy_recover db_b toy_cfg max 1 chain_b.
Proof.
  intros L0 L1. constructor.
  - unfold db_b, with_block, with_progress. cbn [fold_left combine seq List.length]. repeat apply put_wf. apply empty_wf.
  - discriminate.
  - intros [|[|[|i]]] b E; try discriminate; injection E as <-; reflexivity.
  - reflexivity.
  - reflexivity.
  - intros b [<-|[<-|[]]]; reflexivity.
  - exists []. vm_compute. reflexivity.
  - intros b [<-|[<-|[]]]; eexists; (split; [vm_compute; reflexivity|reflexivity]).
  - intros k v I. assert (H : db_b kBlockBodies = [(block_key_hash 1 (repeat 9 32), RLP (stored_item (mkStored 5 0 []))); (block_key_hash 2 (repeat 7 32), RLP (stored_item (mkStored 6 1 [])))]) by (vm_compute; reflexivity). rewrite H in I. destruct I as [E|[E|[]]]; apply pair_equal_spec in E as (<- & _); [exists 1, (repeat 9 32)|exists 2, (repeat 7 32)]; repeat split; reflexivity.
  - intros b t [<-|[<-|[]]] It; cbn [b_txs toy_block] in It; repeat (destruct It as [<-|It]; [split; [reflexivity|discriminate]|]); destruct It.
  - intros b [<-|[<-|[]]]; repeat constructor.
  - intros b [<-|[<-|[]]]; cbn; lia.
  - change (2 ^ 32) with 4294967296. lia.
  - intros k v [].
  - reflexivity.
  - reflexivity.
  - change (2 ^ 64) with 18446744073709551616. cbn [List.length chain_b]. lia.
Qed.
(** A signature nothing can be recovered from. *)
Definition failing_recover (h s : bytes) (p : bool) : option bytes := None.
Lemma fails_a : exists hs b, prepare toy_keccak 10 toy_cfg db_a 0 1000 = Done (inr (hs, ([b], E_finish))) /\ work toy_keccak failing_recover (10 * 20) b = Failed.
Proof. eexists _, _. split; [vm_compute; reflexivity|reflexivity]. Qed.
Lemma waits_a_case : waiting_chain toy_keccak toy_recover db_a toy_cfg 10 1 chain_a /\ (forall b, In b chain_a -> b_txs b <> []) /\ count chain_a = 3.
Proof. split; [apply waits_a; [discriminate|reflexivity]|]. split; [intros b [<-|[<-|[]]]; discriminate|reflexivity]. Qed.
Lemma waits_a_batches : waiting_chain toy_keccak toy_recover db_a toy_cfg 2 1 chain_a /\ N.of_nat 1 * 2 < count chain_a.
Proof. split; [apply waits_a; [discriminate|reflexivity]|reflexivity]. Qed.
Lemma waits_b_case : waiting_chain toy_keccak toy_recover db_b toy_cfg 10 1 chain_b /\ List.NoDup (map b_hash chain_b) /\ exists a b, nth_error chain_b 0 = Some a /\ b_txs a = [] /\ nth_error chain_b 1 = Some b /\ b_senders b <> [].
Proof.
  split; [apply waits_b; [discriminate|reflexivity]|]. split; [constructor; [intros [E|[]]; discriminate|constructor; [intros []|constructor]]|]. do 2 eexists. split; [reflexivity|]. split; [reflexivity|]. split; [reflexivity|discriminate].
Qed.
