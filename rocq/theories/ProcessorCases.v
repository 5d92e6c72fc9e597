(** Concrete blocks for the theorems about transactions and blocks. *)
From stdpp Require Import gmap.
From Coq Require Import ZArith.
From Verif Require Import Base BaseFacts RlpModel TypesModel TxModel BlockModel ChainModel StateModel EvmModel EvmSpec EvmLemmas EvmCases ProcessorModel ProcessorSpec.

(** 100 has ten million wei, 200 is the contract of EvmCases. *)
Definition p_db : db_reader :=
  mkDb (fun a => if a =? 100 then Some (mkAccount 3 10000000 kEmptyHash 0) else if a =? 200 then Some (mkAccount 1 50 (e_hash [1]) 1) else None)
       (read_code e_db) (read_storage e_db) (fun _ => 0).
Lemma p_fresh : forall a k, read_storage p_db a 0 k = 0. Proof. exact e_fresh. Qed.
Lemma p_total : total (balance_of p_db ibs_new) 10000050.
Proof.
  exists [100; 200]. split; [repeat constructor; cbn; intuition discriminate|]. split; [|reflexivity].
  intros a Ha. unfold balance_of, get_balance, get_object. cbn. destruct (N.eqb_spec a 100) as [->|]; [exfalso; apply Ha; now left|].
  destruct (N.eqb_spec a 200) as [->|]; [exfalso; apply Ha; right; now left|reflexivity].
Qed.
Definition p_bloom : bytes := repeat 0 256.
Definition p_header : block_header := mkHdr [] [] [99] [] [] [1; 2] p_bloom 0 10 200000 116816 0 [] [] [] (Some 7).
Definition p_ommer : block_header := mkHdr [] [] [98] [] [] [] [] 0 8 0 0 0 [] [] [] None.
Definition p_cfg : chain_config := mkCfg 1 kNoProof [] None None.
Definition p_call : transaction := mkTx kEip1559 3 3 12 100000 (Some [200]) 30 [] false None 0 0 [mkEntry [150] [[1]; [2]]] (Some [100]).
Definition p_create : transaction := mkTx kEip1559 4 3 12 100000 None 40 [9] false None 0 0 [] (Some [100]).
Lemma p_pre : Forall (prevalidated EVMC_LONDON p_header) [p_call; p_create].
Proof. repeat constructor; try (eexists; reflexivity); try (cbn; lia); vm_compute; discriminate. Qed.
Lemma p_ommers : Forall (fun o => hd_number o < hd_number p_header /\ hd_number p_header <= hd_number o + 8) [p_ommer].
Proof. repeat constructor; cbn; lia. Qed.
Definition p_iter (X : gset N) : list N := elements X.
Lemma p_iter_ok : forall X, Permutation (p_iter X) (elements X). Proof. reflexivity. Qed.
Lemma p_valid : fst (validate_transaction p_db p_header 0 p_call ibs_new) = kOk. Proof. vm_compute. reflexivity. Qed.
Definition p_run (h : block_header) := run_block e_hash p_db EVMC_LONDON (fun _ _ _ => 100) (fun _ i => Some i) (fun _ => zeros 32) e_interp 1025 p_iter (fun _ => [1; 2]) p_cfg h.
(** A call and a creation, one ommer: 116816 gas at base fee 7 and tip 3. *)
Lemma p_block : match p_run p_header [p_call; p_create] [p_ommer] with
  | Some (rs, kOk, Some s) => map rc_cumulative_gas_used rs = [63600; 116816] /\ map (balance_of p_db s) [100; 200; 300; 99; 98] = [8831770; 60; 20; 2062500000000350448; 1500000000000000000]
  | _ => False end.
Proof. vm_compute. split; reflexivity. Qed.
(** The same block with a header that claims one unit less gas writes nothing; with the transactions swapped the nonce is wrong. *)
Definition p_bad : block_header := mkHdr [] [] [99] [] [] [1; 2] p_bloom 0 10 200000 116815 0 [] [] [] (Some 7).
Lemma p_rejected : match p_run p_bad [p_call; p_create] [p_ommer] with Some (_, err, w) => err = kWrongBlockGas /\ w = None | None => False end
  /\ match p_run p_header [p_create; p_call] [p_ommer] with Some (rs, err, w) => rs = [] /\ err = kWrongNonce /\ w = None | None => False end.
Proof. vm_compute. repeat split. Qed.
(** The DAO transfer with three of the listed accounts. *)
Definition d_db : db_reader :=
  mkDb (fun a => if a =? 0xd4fe7bc31cedb7bfb8a345f31e668033056b2728 then Some (mkAccount 0 500 kEmptyHash 0)
                 else if a =? 0x807640a13483f8ac783c557fcdf27be11ea4ac7a then Some (mkAccount 0 70 kEmptyHash 0)
                 else if a =? 100 then Some (mkAccount 3 1000 kEmptyHash 0) else None)
       (fun _ => []) (fun _ _ _ => 0) (fun _ => 0).
Lemma d_total : total (balance_of d_db ibs_new) 1570.
Proof.
  exists [0xd4fe7bc31cedb7bfb8a345f31e668033056b2728; 0x807640a13483f8ac783c557fcdf27be11ea4ac7a; 100]. split; [repeat constructor; cbn; intuition discriminate|]. split; [|reflexivity].
  intros a Ha. unfold balance_of, get_balance, get_object. cbn. destruct (N.eqb_spec a 0xd4fe7bc31cedb7bfb8a345f31e668033056b2728) as [->|]; [exfalso; apply Ha; now left|].
  destruct (N.eqb_spec a 0x807640a13483f8ac783c557fcdf27be11ea4ac7a) as [->|]; [exfalso; apply Ha; right; now left|].
  destruct (N.eqb_spec a 100) as [->|]; [exfalso; apply Ha; right; right; now left|reflexivity].
Qed.
Lemma d_case : map (balance_of d_db (transfer_balances d_db ibs_new)) [0xd4fe7bc31cedb7bfb8a345f31e668033056b2728; 0x807640a13483f8ac783c557fcdf27be11ea4ac7a; 100; kWithdraw] = [0; 0; 1000; 570].
Proof. vm_compute. reflexivity. Qed.
