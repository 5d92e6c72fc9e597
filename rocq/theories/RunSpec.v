(** The execution of a block on the reference machine of StateSpec: no store, no caches, no incarnations. *)
From stdpp Require Import gmap.
From Verif Require Import Base RlpModel TxModel BlockModel TypesModel ChainModel StateModel StateSpec MemBufModel MemBufSpec EvmModel ProcessorModel ScriptSpec ScriptEvm.

Section Reference.
  Variable keccak : bytes -> bytes.
  Variable rev : N.
  Variable pre_gas : N -> bytes -> N -> N.
  Variable pre_run : N -> bytes -> option bytes.
  Variable block_hash : N -> bytes.
  Variable interp : message -> bytes -> prog.
  Variable fuel : nat.
  Variable root : list receipt -> bytes.
  Variable config : chain_config.
  Variable header : block_header.
  Variable ts : list transaction.
  Variable ommers : list block_header.

  (** The receipts, the verdict, the calls made and the world they leave. None: the EVM ran out of the model's fuel, or a call was outside the contract of IntraBlockState
      or in the sequence excluded in StateSpec. *)
  Definition reference_block (w : world) : option (list receipt * validation_result * list op * world) :=
    match arun_script keccak elements (contract_in w) (t_block keccak rev pre_gas pre_run block_hash interp fuel header root config ts ommers) (w, []) with
    | Some ((Some (rs, v), _), ops, (w', _)) => Some (rs, v, ops, w')
    | _ => None
    end.

  (** The block contains the sequence excluded in StateSpec: if it is let pass, a contract is created where one was at the beginning of the block, has been destroyed in it and
      an account exists again. *)
  Definition revives (w : world) : Prop := exists r pre a rest y vs w1 sn1,
    arun_script keccak elements (fun _ => false) (t_block keccak rev pre_gas pre_run block_hash interp fuel header root config ts ommers) (w, []) = Some (r, pre ++ OCreate a :: rest, y)
    /\ arun keccak (fun _ => false) (w, []) pre = Some (vs, (w1, sn1)) /\ contract_in w a = true /\ w_gone w1 a = true /\ w_exists w1 a = true.
End Reference.
(** What block validation has checked before execution: intrinsic gas, and a gas limit within that of the header. *)
Definition fits (rev : N) (t : transaction) : Prop := intrinsic_gas t (EVMC_HOMESTEAD <=? rev) (EVMC_ISTANBUL <=? rev) <= tx_gas_limit t < 2 ^ 63.

(** [db] holds the world [w], and has room for the calls [ops]. *)
Definition holds (keccak code_of : bytes -> bytes) (db : db_reader) (w : world) (ops : list op) : Prop :=
  starts code_of db w /\ db_ok keccak code_of db (N.of_nat (length ops)) /\ codes_ok keccak code_of ops.
(** What is read from the set, in whatever order: each element once. *)
Definition visits (iterate : gset N -> list N) : Prop := forall X, iterate X ≡ₚ elements X.
(** Only contracts have code. *)
Definition coded (w : world) : Prop := forall a c, w_acct w a = Some c -> ac_code c <> [] -> ac_contract c = true.
