(** C31 gas accounting, C32 rewards, C37 DAO transfer, C63 accepting a block, C64 warm addresses. *)
From stdpp Require Import gmap.
From Coq Require Import ZArith.
From Verif Require Import Base RlpSpec TypesModel TxModel BlockModel ChainModel StateModel EvmModel EvmSpec EvmProofs EvmCases
  ProcessorModel ProcessorSpec ProcessorProofs ProcessorProofs2 ProcessorLemmas ProcessorCases.

Section Transactions.
  Variable keccak : bytes -> bytes.
  Variable db : db_reader.
  Variable rev : N.
  Variable pre_gas : N -> bytes -> N -> N.
  Variable pre_run : N -> bytes -> option bytes.
  Variable block_hash : N -> bytes.
  Variable interp : message -> bytes -> prog.
  Variable fuel : nat.
  Variable iterate : gset N -> list N.
  Variable header : block_header.
  Notation etxn := (execute_txn keccak db rev pre_gas pre_run block_hash interp fuel).
  Notation exec := (execute_transaction keccak db rev pre_gas pre_run block_hash interp fuel iterate header).
  Notation g0 t := (intrinsic_gas t (EVMC_HOMESTEAD <=? rev) (EVMC_ISTANBUL <=? rev)).

  (** C31: for every valid transaction and whatever the EVM does. The EVM starts in the state [s1] in which the sender has
      paid for the whole gas limit, and ends in [s2] with some gas left. Gas used is what was spent minus a refund of
      at most a half (a fifth from London) of it; the receipt carries the sum; the sender is paid back for the rest at
      the price it paid, the beneficiary gets the tip, and base fee times gas used is burnt. *)
  Theorem C31_transaction strict : (forall a k, read_storage db a 0 k = 0) -> lawful strict interp -> (1024 <= fuel)%nat ->
    (forall X, Permutation (iterate X) (elements X)) ->
    forall cum t s s0 tt, hd_gas_limit header < 2 ^ 63 -> cum <= hd_gas_limit header -> prevalidated rev header t ->
    validate_transaction db header cum t s = (kOk, s0) -> total (balance_of db s) tt -> tt < 2 ^ 256 ->
    exists s1 r s2 used rc s', charged db header t s s1
      /\ etxn (recipient_of t) (sender_of t) (tx_gas_limit t - g0 t) (tx_data t) (tx_value t) s1 = Returns r s2
      /\ exec cum t s0 = Some (rc, cum + used, s')
      /\ (let spent := tx_gas_limit t - Z.to_N (r_gas r) in
          g0 t <= spent <= tx_gas_limit t /\ spent - spent / refund_quotient rev <= used <= spent
          /\ (refund_counter rev s2 < 2 ^ 64 -> used = spent - N.min (refund_counter rev s2) (spent / refund_quotient rev)))
      /\ cum + used <= hd_gas_limit header
      /\ rc = mkReceipt (tx_typ t) (is_success (r_status r)) (cum + used) (logs_bloom keccak (logs s2)) (logs s2)
      /\ (forall x, balance_of db s' x = if bool_decide (x ∈ self_destructs s2) then 0
            else balance_of db s2 x + (if x =? sender_of t then (tx_gas_limit t - used) * price header t else 0)
                 + (if x =? be_to_N (hd_beneficiary header) then used * tip header t else 0))
      /\ exists tt', total (balance_of db s') tt' /\ tt' + used * base_fee_of header <= tt
           /\ (strict = true -> self_destructs s2 = ∅ -> tt' + used * base_fee_of header = tt).
  Proof. intros Hdb Hlaw Hfuel Hiter. exact (transaction_ok keccak db rev pre_gas pre_run block_hash interp fuel iterate header Hdb strict Hlaw Hfuel Hiter). Qed.

  (** C31: a transaction is accepted exactly with the right nonce, enough funds for gas and value, and gas left in the block. *)
  Theorem C31_valid : forall cum t s, cum <= hd_gas_limit header -> hd_gas_limit header < 2 ^ 64 ->
    let '(err, s0) := validate_transaction db header cum t s in
    (err = kOk <-> (exists a, tx_from t = Some a) /\ nonce_of db s (sender_of t) = tx_nonce t
        /\ tx_gas_limit t * tx_max_fee t + tx_value t <= balance_of db s (sender_of t) /\ cum + tx_gas_limit t <= hd_gas_limit header)
    /\ (forall x, balance_of db s0 x = balance_of db s x /\ nonce_of db s0 x = nonce_of db s x /\ code_hash_of db s0 x = code_hash_of db s x).
  Proof. exact (validate_spec db header). Qed.

  (** C31, C32: a block. Cumulative gas is the running sum of the gas used and never exceeds the limit of the block; the
      supply grows by at most the rewards and shrinks by the burnt base fee; without success there are no rewards. *)
  Theorem C31_C32_block config strict : (forall a k, read_storage db a 0 k = 0) -> lawful strict interp -> (1024 <= fuel)%nat ->
    (forall X, Permutation (iterate X) (elements X)) ->
    forall ts ommers s tt, hd_gas_limit header < 2 ^ 63 -> hd_number header < 2 ^ 64 -> Forall (prevalidated rev header) ts ->
    Forall (fun o => hd_number o < hd_number header /\ hd_number header <= hd_number o + 8) ommers ->
    total (balance_of db s) tt -> tt + all_rewards rev header ommers < 2 ^ 256 ->
    exists rs err s' used, execute_block keccak db rev pre_gas pre_run block_hash interp fuel iterate header config ts ommers s = Some (rs, err, s')
      /\ receipts_ok keccak rev header ts rs used /\ (err = kOk -> length rs = length ts)
      /\ exists tt', total (balance_of db s') tt'
           /\ tt' + fold_right N.add 0 used * base_fee_of header <= tt + match err with kOk => all_rewards rev header ommers | _ => 0 end.
  Proof. intros Hdb Hlaw Hfuel Hiter. exact (block_ok keccak db rev pre_gas pre_run block_hash interp fuel iterate header config strict Hdb Hlaw Hfuel Hiter). Qed.

  (** C32: exactly the rewards of the protocol are added, and nothing else changes. *)
  Theorem C32_rewards : (forall a k, read_storage db a 0 k = 0) ->
    forall ommers s tt, Forall (fun o => hd_number o < hd_number header /\ hd_number header <= hd_number o + 8) ommers -> hd_number header < 2 ^ 64 ->
    total (balance_of db s) tt -> tt + all_rewards rev header ommers < 2 ^ 256 ->
    let s' := apply_rewards db rev header ommers s in
    (forall x, balance_of db s' x = balance_of db s x + reward_to rev header ommers x) /\ total (balance_of db s') (tt + all_rewards rev header ommers)
    /\ (forall x, nonce_of db s' x = nonce_of db s x) /\ (forall x, code_hash_of db s' x = code_hash_of db s x).
  Proof. intros Hdb. exact (rewards_ok db rev header Hdb). Qed.

  (** C37 *)
  Theorem C37_dao : (forall a k, read_storage db a 0 k = 0) -> forall s tt, total (balance_of db s) tt -> tt < 2 ^ 256 ->
    let s' := transfer_balances db s in
    (forall x, balance_of db s' x = after_dao kWithdraw kChildren (balance_of db s) x)
    /\ total (balance_of db s') tt /\ (forall x, nonce_of db s' x = nonce_of db s x) /\ (forall x, code_hash_of db s' x = code_hash_of db s x).
  Proof. intros Hdb. exact (dao_ok db Hdb). Qed.

  (** C63: state is written exactly when the block is accepted, and an accepted block matches its header in gas, receipts
      root and bloom. [root] stands for the trie root of the receipts. *)
  Theorem C63_accepted config root strict : (forall a k, read_storage db a 0 k = 0) -> lawful strict interp -> (1024 <= fuel)%nat ->
    (forall X, Permutation (iterate X) (elements X)) ->
    forall ts ommers tt, hd_gas_limit header < 2 ^ 63 -> hd_number header < 2 ^ 64 -> Forall (prevalidated rev header) ts ->
    Forall (fun o => hd_number o < hd_number header /\ hd_number header <= hd_number o + 8) ommers ->
    total (balance_of db ibs_new) tt -> tt + all_rewards rev header ommers < 2 ^ 256 ->
    exists rs err w, run_block keccak db rev pre_gas pre_run block_hash interp fuel iterate root config header ts ommers = Some (rs, err, w)
      /\ (err <> kOk -> w = None)
      /\ (err = kOk -> exists s' used tt', w = Some s' /\ receipts_ok keccak rev header ts rs used /\ length rs = length ts
            /\ hd_gas_used header = fold_right N.add 0 used /\ (EVMC_BYZANTIUM <= rev -> hd_receipts_root header = root rs)
            /\ hd_logs_bloom header = logs_bloom keccak (concat (map rc_logs rs))
            /\ total (balance_of db s') tt' /\ tt' + hd_gas_used header * base_fee_of header <= tt + all_rewards rev header ommers).
  Proof. intros Hdb Hlaw Hfuel Hiter. exact (run_ok keccak db rev pre_gas pre_run block_hash interp fuel iterate header config strict Hdb Hlaw Hfuel Hiter root). Qed.
  Theorem C63_complete config root : forall ts ommers rs s',
    execute_block keccak db rev pre_gas pre_run block_hash interp fuel iterate header config ts ommers ibs_new = Some (rs, kOk, s') ->
    (match rs with [] => 0 | _ => rc_cumulative_gas_used (List.last rs (mkReceipt kLegacy false 0 [] [])) end) = hd_gas_used header ->
    (EVMC_BYZANTIUM <= rev -> root rs = hd_receipts_root header) ->
    fold_left (fun b r => join_bloom b (rc_bloom r)) rs (repeat 0 256) = hd_logs_bloom header ->
    run_block keccak db rev pre_gas pre_run block_hash interp fuel iterate root config header ts ommers = Some (rs, kOk, Some s').
  Proof. exact (run_complete keccak db rev pre_gas pre_run block_hash interp fuel iterate header config root). Qed.

  (** C64: when the EVM starts, exactly the sender, the recipient and the access list are warm. *)
  Theorem C64_warm_start : (forall a k, read_storage db a 0 k = 0) -> forall t s, let s1 := prepare db header t s in
    (forall a, a ∈ accessed_addresses s1 <-> a = sender_of t \/ recipient_of t = Some a \/ listed_address t a)
    /\ (forall a k, (a, k) ∈ accessed_keys s1 <-> listed_key t a k).
  Proof. intros Hdb. exact (warm_start db Hdb header). Qed.
End Transactions.
Print Assumptions C31_transaction.
Print Assumptions C31_valid.
Print Assumptions C31_C32_block.
Print Assumptions C32_rewards.
Print Assumptions C37_dao.
Print Assumptions C63_accepted.
Print Assumptions C63_complete.
Print Assumptions C64_warm_start.

(** Two transactions with a base fee and an ommer meet the hypotheses. *)
Example C31_case : (forall a k, read_storage p_db a 0 k = 0) /\ lawful true e_interp /\ (forall X, Permutation (p_iter X) (elements X))
  /\ Forall (prevalidated EVMC_LONDON p_header) [p_call; p_create] /\ fst (validate_transaction p_db p_header 0 p_call ibs_new) = kOk
  /\ total (balance_of p_db ibs_new) 10000050.
Proof. split; [exact p_fresh|]. split; [exact e_lawful|]. split; [exact p_iter_ok|]. split; [exact p_pre|]. split; [exact p_valid|exact p_total]. Qed.
Example C32_case : Forall (fun o => hd_number o < hd_number p_header /\ hd_number p_header <= hd_number o + 8) [p_ommer]
  /\ map (reward_to EVMC_LONDON p_header [p_ommer]) [99; 98; 97] = [2062500000000000000; 1500000000000000000; 0]
  /\ all_rewards EVMC_LONDON p_header [p_ommer] = 3562500000000000000.
Proof. split; [exact p_ommers|]. split; reflexivity. Qed.
Example C63_case : match p_run p_header [p_call; p_create] [p_ommer] with
  | Some (rs, kOk, Some s) => map rc_cumulative_gas_used rs = [63600; 116816] /\ map (balance_of p_db s) [100; 200; 300; 99; 98] = [8831770; 60; 20; 2062500000000350448; 1500000000000000000]
  | _ => False end.
Proof. exact p_block. Qed.
Example C63_rejected_case : match p_run p_bad [p_call; p_create] [p_ommer] with Some (_, err, w) => err = kWrongBlockGas /\ w = None | None => False end
  /\ match p_run p_header [p_create; p_call] [p_ommer] with Some (rs, err, w) => rs = [] /\ err = kWrongNonce /\ w = None | None => False end.
Proof. exact p_rejected. Qed.
Example C37_case : total (balance_of d_db ibs_new) 1570
  /\ map (balance_of d_db (transfer_balances d_db ibs_new)) [0xd4fe7bc31cedb7bfb8a345f31e668033056b2728; 0x807640a13483f8ac783c557fcdf27be11ea4ac7a; 100; kWithdraw] = [0; 0; 1000; 570].
Proof. split; [exact d_total|exact d_case]. Qed.
Example C64_case : elements (accessed_keys (prepare p_db p_header p_call ibs_new)) = [(150, 2); (150, 1)] \/ elements (accessed_keys (prepare p_db p_header p_call ibs_new)) = [(150, 1); (150, 2)].
Proof. vm_compute. auto. Qed.
