(** Specification for the execution of transactions and blocks: Yellow Paper sections 6 and 11.3, EIP-1559, EIP-3529,
    EIP-649, EIP-1234, EIP-779. *)
From stdpp Require Import gmap.
From Coq Require Import ZArith.
From Verif Require Import Base RlpModel TxModel BlockModel TypesModel ChainModel StateModel EvmModel EvmSpec.

(** What pre_validate_transaction (C20), the decoder and the sender recovery guarantee. *)
Record prevalidated (rev : N) (header : block_header) (t : transaction) : Prop := {
  pv_sender : exists a, tx_from t = Some a;
  pv_base_fee : match hd_base_fee header with Some b => b <= tx_max_fee t | None => True end;
  pv_intrinsic : intrinsic_gas t (EVMC_HOMESTEAD <=? rev) (EVMC_ISTANBUL <=? rev) <= tx_gas_limit t;
  pv_nonce : tx_nonce t < 2 ^ 64
}.

Definition base_fee_of (header : block_header) : N := match hd_base_fee header with Some b => b | None => 0 end.
Definition sender_of (t : transaction) : N := match tx_from t with Some a => be_to_N a | None => 0 end.
Definition recipient_of (t : transaction) : option N := match tx_to t with Some a => Some (be_to_N a) | None => None end.
(** EIP-1559: the tip per gas, and the price per gas. *)
Definition tip (header : block_header) (t : transaction) : N := N.min (tx_max_priority_fee t) (tx_max_fee t - base_fee_of header).
Definition price (header : block_header) (t : transaction) : N := base_fee_of header + tip header t.
Definition refund_quotient (rev : N) : N := if rev <? EVMC_LONDON then 2 else 5.
(** Refund counter of a transaction; self-destructs count 24000 each before London. *)
Definition refund_counter (rev : N) (s : ibs) : N :=
  refund s + if rev <? EVMC_LONDON then 24000 * N.of_nat (size (self_destructs s)) else 0.

(** The state in which the EVM starts: the sender has paid for the whole gas limit; for a message call its nonce is
    incremented; the substate is empty. *)
Record charged (db : db_reader) (header : block_header) (t : transaction) (s s1 : ibs) : Prop := {
  ch_balance : forall x, balance_of db s1 x = if x =? sender_of t then balance_of db s x - tx_gas_limit t * price header t else balance_of db s x;
  ch_nonce : forall x, nonce_of db s1 x = if (x =? sender_of t) && (match tx_to t with Some _ => true | None => false end)
                                          then (tx_nonce t + 1) mod 2 ^ 64 else nonce_of db s x;
  ch_code_hash : forall x, code_hash_of db s1 x = code_hash_of db s x;
  ch_refund : refund s1 = 0;
  ch_suicides : self_destructs s1 = ∅;
  ch_logs : logs s1 = []
}.

(** Rewards. *)
Definition static_reward (rev : N) : N :=
  if rev <? EVMC_BYZANTIUM then 5 * 10 ^ 18 else if rev <? EVMC_CONSTANTINOPLE then 3 * 10 ^ 18 else 2 * 10 ^ 18.
(** [d] is the distance from the ommer to the block. *)
Definition ommer_share (rev d : N) : N := (8 - d) * static_reward rev / 8.
Definition reward_to (rev : N) (header : block_header) (ommers : list block_header) (x : N) : N :=
  fold_right (fun o n => (if be_to_N (hd_beneficiary o) =? x then ommer_share rev (hd_number header - hd_number o) else 0) + n) 0 ommers
  + if be_to_N (hd_beneficiary header) =? x then static_reward rev + N.of_nat (length ommers) * (static_reward rev / 32) else 0.
Definition all_rewards (rev : N) (header : block_header) (ommers : list block_header) : N :=
  fold_right (fun o n => ommer_share rev (hd_number header - hd_number o) + n) 0 ommers
  + (static_reward rev + N.of_nat (length ommers) * (static_reward rev / 32)).

(** Running sums. *)
Fixpoint running (acc : N) (l : list N) : list N := match l with [] => [] | x :: t => (acc + x) :: running (acc + x) t end.

(** Balances after the DAO transfer out of [l] into [w]. *)
Definition after_dao (w : N) (l : list N) (b : N -> N) (x : N) : N :=
  if x =? w then b x + sum b l else if existsb (N.eqb x) l then 0 else b x.
(** What the receipts of a block say: one per executed transaction, with its type, its own logs' bloom, and the running
    sum of the gas used; [used] lists the gas used by each. *)
Record receipts_ok (keccak : bytes -> bytes) (rev : N) (header : block_header) (ts : list transaction) (rs : list receipt) (used : list N) : Prop := {
  ro_prefix : (length rs <= length ts)%nat;
  ro_each : Forall2 (fun t rc => rc_type rc = tx_typ t /\ rc_bloom rc = logs_bloom keccak (rc_logs rc)) (firstn (length rs) ts) rs;
  ro_running : map rc_cumulative_gas_used rs = running 0 used;
  ro_used : Forall2 (fun t u => let g0 := intrinsic_gas t (EVMC_HOMESTEAD <=? rev) (EVMC_ISTANBUL <=? rev) in
                      g0 - g0 / refund_quotient rev <= u <= tx_gas_limit t) (firstn (length rs) ts) used;
  ro_limit : Forall (fun c => c <= hd_gas_limit header) (map rc_cumulative_gas_used rs)
}.

(** EIP-2929/2930: what is warm when the EVM starts. *)
Definition listed_address (t : transaction) (a : N) : Prop := exists e, In e (tx_access_list t) /\ be_to_N (ale_account e) = a.
Definition listed_key (t : transaction) (a k : N) : Prop :=
  exists e b, In e (tx_access_list t) /\ be_to_N (ale_account e) = a /\ In b (ale_storage_keys e) /\ be_to_N b = k.
