(** The execution of a block (EvmModel, ProcessorModel) written as a program over the interface of IntraBlockState: the same steps, with the state left out. ScriptProofs shows that
    it is the same; no definition here models code of its own. *)
From stdpp Require Import gmap.
From Coq Require Import ZArith.
From Verif Require Import Base RlpModel TxModel BlockModel TypesModel ChainModel StateModel StateSpec EvmModel ProcessorModel ScriptSpec.

(** Programs that know how many snapshots have been taken, so that they can name them. *)
Definition prg (A : Type) := nat -> script (A * nat).
Fixpoint bind_script {A B} (t : script A) (f : A -> script B) : script B :=
  match t with
  | Ret a => f a
  | Ask o k => Ask o (fun v => bind_script (k v) f)
  | Suicides k => Suicides (bind_script k f)
  | TouchedDead k => TouchedDead (bind_script k f)
  end.
Definition ret {A} (a : A) : prg A := fun d => Ret (a, d).
Definition bind {A B} (p : prg A) (f : A -> prg B) : prg B := fun d => bind_script (p d) (fun '(a, d) => f a d).
Notation "'do' x <- p ; q" := (bind p (fun x => q)) (at level 60, x pattern, p at next level, q at level 60, right associativity).
Definition num (o : op) : prg N := fun d => Ask o (fun v => Ret (match v with VNum n => n | _ => 0 end, d)).
Definition boo (o : op) : prg bool := fun d => Ask o (fun v => Ret (match v with VBool b => b | _ => false end, d)).
Definition byt (o : op) : prg bytes := fun d => Ask o (fun v => Ret (match v with VBytes b => b | _ => [] end, d)).
Definition lgs (o : op) : prg (list log) := fun d => Ask o (fun v => Ret (match v with VLogs l => l | _ => [] end, d)).
Definition cmd (o : op) : prg unit := fun d => Ask o (fun _ => Ret (tt, d)).
Definition when (b : bool) (p : prg unit) : prg unit := if b then p else ret tt.
(** the number of the snapshot taken *)
Definition snap : prg nat := fun d => Ask OSnapshot (fun _ => Ret (d, S d)).
Definition back (i : nat) : prg unit := fun _ => Ask (ORevert i) (fun _ => Ret (tt, S i)).
(** calls after which no snapshot is valid *)
Definition fin (o : op) : prg unit := fun _ => Ask o (fun _ => Ret (tt, O)).
Definition suicides : prg unit := fun _ => Suicides (Ret (tt, O)).
Definition touched_dead : prg unit := fun _ => TouchedDead (Ret (tt, O)).
Fixpoint each {A} (f : A -> prg unit) (l : list A) : prg unit := match l with [] => ret tt | x :: t => do _ <- f x; each f t end.

Inductive answer := AReturns (r : result) | ANoFuel | AUndefined.

Section Evm.
  Variable keccak : bytes -> bytes.
  Variable rev : N.
  Variable pre_gas : N -> bytes -> N -> N.
  Variable pre_run : N -> bytes -> option bytes.
  Variable block_hash : N -> bytes.
  Variable interp : message -> bytes -> prog.

  Definition t_account_exists (a : N) : prg bool := if EVMC_SPURIOUS_DRAGON <=? rev then do d <- boo (OIsDead a); ret (negb d) else boo (OExists a).
  Definition t_access_account (a : N) : prg bool := if is_precompiled rev a then ret false else boo (OAccessAccount a).
  Definition t_set_storage (a key v : N) : prg storage_status :=
    do current <- num (OCurrent a key);
    if current =? v then ret ST_UNCHANGED
    else
      do _ <- cmd (OSetStorage a key v);
      let eip1283 := (EVMC_ISTANBUL <=? rev) || (rev =? EVMC_CONSTANTINOPLE) in
      if negb eip1283 then
        if current =? 0 then ret ST_ADDED
        else if v =? 0 then do _ <- cmd (OAddRefund 15000); ret ST_DELETED
        else ret ST_MODIFIED
      else
        do original <- num (OOriginal a key);
        if original =? current then
          if original =? 0 then ret ST_ADDED
          else do _ <- when (v =? 0) (cmd (OAddRefund (sstore_clears_refund rev))); ret ST_MODIFIED
        else
          do _ <- when (negb (original =? 0) && (current =? 0)) (cmd (OSubRefund (sstore_clears_refund rev)));
          do _ <- when (negb (original =? 0) && (v =? 0)) (cmd (OAddRefund (sstore_clears_refund rev)));
          do _ <- when (original =? v) (cmd (OAddRefund (if original =? 0 then 20000 - sload_cost rev else sstore_reset_gas rev - sload_cost rev)));
          ret ST_MODIFIED_AGAIN.
  Definition t_get_code_hash (a : N) : prg bytes := do d <- boo (OIsDead a); if d : bool then ret (zeros 32) else byt (OCodeHash a).
  Definition t_copy_code (a offset size : N) : prg bytes :=
    do code <- byt (OCode a); ret (if blen code <=? offset then [] else firstn (N.to_nat size) (skipn (N.to_nat offset) code)).
  Definition t_selfdestruct (a beneficiary : N) : prg unit :=
    do _ <- cmd (OSuicide a); do b <- num (OBalance a); do _ <- cmd (OAddBalance beneficiary b); cmd (OSetBalance a 0).

  Fixpoint t_run (callf : message -> prg answer) (p : prog) : prg answer :=
    match p with
    | PDone r => ret (AReturns r)
    | PAccountExists a k => do b <- t_account_exists a; t_run callf (k b)
    | PGetStorage a key k => do v <- num (OCurrent a key); t_run callf (k v)
    | PSetStorage a key v k => do t <- t_set_storage a key v; t_run callf (k t)
    | PGetBalance a k => do v <- num (OBalance a); t_run callf (k v)
    | PGetCodeSize a k => do c <- byt (OCode a); t_run callf (k (blen c))
    | PGetCodeHash a k => do h <- t_get_code_hash a; t_run callf (k h)
    | PCopyCode a o n k => do c <- t_copy_code a o n; t_run callf (k c)
    | PSelfdestruct a b k => do _ <- t_selfdestruct a b; t_run callf k
    | PCall m k => do r <- callf m; match r with AReturns r => t_run callf (k r) | o => ret o end
    | PGetBlockHash n k => t_run callf (k (block_hash n))
    | PEmitLog l k => do _ <- cmd (OAddLog l); t_run callf k
    | PAccessAccount a k => do b <- t_access_account a; t_run callf (k b)
    | PAccessStorage a key k => do b <- boo (OAccessStorage a key); t_run callf (k b)
    end.

  Section Body.
    Variable rec : list N -> message -> prg answer.
    Definition t_execute (stack : list N) (m : message) (code : bytes) : prg answer := t_run (rec (m_destination m :: stack)) (interp m code).
    Definition t_settle (n : nat) (r : result) : prg answer :=
      if is_success (r_status r) then ret (AReturns r)
      else do _ <- back n; ret (AReturns (if is_revert (r_status r) then r else mkRes (r_status r) 0 (r_output r) (r_create_address r))).
    Definition t_deploy (contract : N) (r : result) : prg result :=
      if is_success (r_status r) then
        let code := r_output r in
        let code_deploy_gas := (blen code * 200) mod 2 ^ 64 in
        let fail st := mkRes st (r_gas r) code (r_create_address r) in
        if (EVMC_LONDON <=? rev) && match code with b :: _ => b =? 0xEF | [] => false end then ret (fail CONTRACT_VALIDATION_FAILURE)
        else if (EVMC_SPURIOUS_DRAGON <=? rev) && (0x6000 <? blen code) then ret (fail OUT_OF_GAS)
        else if (0 <=? r_gas r)%Z && (code_deploy_gas <=? Z.to_N (r_gas r)) then
          do _ <- cmd (OSetCode contract code); ret (mkRes SUCCESS (r_gas r - Z.of_N code_deploy_gas) code (r_create_address r))
        else if EVMC_HOMESTEAD <=? rev then ret (fail OUT_OF_GAS)
        else ret r
      else ret r.
    Definition t_create (stack : list N) (m : message) : prg answer :=
      do balance <- num (OBalance (m_sender m));
      if balance <? m_value m then ret (AReturns (mkRes INSUFFICIENT_BALANCE (m_gas m) [] 0))
      else
        do nonce <- num (ONonce (m_sender m));
        do _ <- cmd (OSetNonce (m_sender m) ((nonce + 1) mod 2 ^ 64));
        let contract :=
          match m_kind m with
          | KCreate2 => create2_address keccak (m_sender m) (m_salt m) (keccak (m_input m))
          | _ => create_address keccak (m_sender m) nonce
          end in
        do _ <- boo (OAccessAccount contract);
        do cn <- num (ONonce contract);
        do ch <- (if negb (cn =? 0) then ret kEmptyHash else byt (OCodeHash contract));
        if negb (cn =? 0) || negb (bytes_eqb ch kEmptyHash) then ret (AReturns (mkRes INVALID_INSTRUCTION 0 [] 0))
        else
          do n <- snap;
          do _ <- cmd (OCreate contract);
          do _ <- when (EVMC_SPURIOUS_DRAGON <=? rev) (cmd (OSetNonce contract 1));
          do _ <- cmd (OSubBalance (m_sender m) (m_value m));
          do _ <- cmd (OAddBalance contract (m_value m));
          do r <- t_execute stack (mkMsg KCall false (m_depth m) (m_gas m) contract (m_sender m) [] (m_value m) 0) (m_input m);
          match r with
          | AReturns r =>
            do r <- t_deploy contract r;
            t_settle n (if is_success (r_status r) then mkRes (r_status r) (r_gas r) (r_output r) contract else r)
          | o => ret o
          end.
    Definition t_call (stack : list N) (m : message) : prg answer :=
      do poor <- match m_kind m with
                 | KDelegatecall => ret false
                 | _ => do balance <- num (OBalance (m_sender m)); ret (balance <? m_value m)
                 end;
      if poor : bool then ret (AReturns (mkRes INSUFFICIENT_BALANCE (m_gas m) [] 0))
      else
        match recipient_of stack m with
        | None => ret AUndefined
        | Some recipient =>
          let code_address := m_destination m in
          let precompiled := is_precompiled rev code_address in
          do skip <- (if (m_value m =? 0) && (EVMC_SPURIOUS_DRAGON <=? rev) && negb precompiled
                      then do e <- boo (OExists code_address); ret (negb e) else ret false);
          if skip : bool then ret (AReturns (mkRes SUCCESS (m_gas m) [] 0))
          else
            do n <- snap;
            do _ <- match m_kind m with
                    | KCall =>
                      if m_static m then cmd (OTouch recipient)
                      else do _ <- cmd (OSubBalance (m_sender m) (m_value m)); cmd (OAddBalance recipient (m_value m))
                    | _ => ret tt
                    end;
            if precompiled then t_settle n (run_precompiled rev pre_gas pre_run m)
            else
              do code <- byt (OCode code_address);
              match code with
              | [] => ret (AReturns (mkRes SUCCESS (m_gas m) [] 0))
              | _ =>
                do _ <- byt (OCodeHash code_address);
                do r <- t_execute stack (with_destination m recipient) code;
                match r with AReturns r => t_settle n r | o => ret o end
              end
        end.
    Definition t_host_call_body (stack : list N) (m : message) : prg answer :=
      match m_kind m with
      | KCreate | KCreate2 =>
        do r <- t_create stack m;
        match r with
        | AReturns r => ret (AReturns (if is_revert (r_status r) then r else mkRes (r_status r) (r_gas r) [] (r_create_address r)))
        | o => ret o
        end
      | _ => t_call stack m
      end.
  End Body.
  Fixpoint t_host_call (fuel : nat) (stack : list N) (m : message) : prg answer :=
    match fuel with O => ret ANoFuel | S fuel => t_host_call_body (t_host_call fuel) stack m end.
  Definition t_execute_txn (fuel : nat) (to : option N) (from gas : N) (data : bytes) (value : N) : prg answer :=
    let m := tx_message to from gas data value in
    match to with None => t_create (t_host_call fuel) [] m | Some _ => t_call (t_host_call fuel) [] m end.

  Variable fuel : nat.
  Variable header : block_header.

  Definition t_transfer_balances : prg unit :=
    each (fun a => do b <- num (OBalance a); do _ <- cmd (OAddBalance kWithdraw b); cmd (OSetBalance a 0)) kChildren.
  Definition t_validate (cumulative : N) (t : transaction) : prg validation_result :=
    match tx_from t with
    | None => ret kMissingSender
    | Some from =>
      do nonce <- num (ONonce (be_to_N from));
      if negb (nonce =? tx_nonce t) then ret kWrongNonce
      else
        do balance <- num (OBalance (be_to_N from));
        ret (if balance <? tx_gas_limit t * tx_max_fee t + tx_value t then kInsufficientFunds
             else if available_gas header cumulative <? tx_gas_limit t then kBlockGasLimitExceeded else kOk)
    end.
  Definition t_prepare (t : transaction) : prg unit :=
    do _ <- fin OClear;
    do _ <- boo (OAccessAccount (tx_sender t));
    do _ <- cmd (OSubBalance (tx_sender t) (mul256 (tx_gas_limit t) (effective_gas_price t (base_fee header))));
    do _ <- match tx_recipient t with
            | Some to => do _ <- boo (OAccessAccount to); cmd (OSetNonce (tx_sender t) (add64 (tx_nonce t) 1))
            | None => ret tt
            end;
    each (fun e =>
      do _ <- boo (OAccessAccount (be_to_N (ale_account e)));
      each (fun k => do _ <- boo (OAccessStorage (be_to_N (ale_account e)) (be_to_N k)); ret tt) (ale_storage_keys e)) (tx_access_list t).
  Definition t_refund (t : transaction) (gas_left : N) : prg N :=
    do counter <- (if rev <? EVMC_LONDON then do r <- num ORefund; do n <- num OSuicides; ret (add64 r (mul64 kRSelfDestruct n)) else num ORefund);
    let quotient := if EVMC_LONDON <=? rev then kMaxRefundQuotientLondon else kMaxRefundQuotientFrontier in
    let max_refund := sub64 (tx_gas_limit t) gas_left / quotient in
    let gas_left := add64 gas_left (N.min counter max_refund) in
    do _ <- cmd (OAddBalance (tx_sender t) (mul256 gas_left (effective_gas_price t (base_fee header))));
    ret gas_left.
  Definition t_transaction (cumulative : N) (t : transaction) : prg (option (receipt * N)) :=
    do _ <- t_prepare t;
    let g0 := intrinsic_gas t (EVMC_HOMESTEAD <=? rev) (EVMC_ISTANBUL <=? rev) in
    do r <- t_execute_txn fuel (tx_recipient t) (tx_sender t) (sub64 (tx_gas_limit t) (g0 mod 2 ^ 64)) (tx_data t) (tx_value t);
    match r with
    | AReturns r =>
      do gas_left <- t_refund t (to_u64 (r_gas r));
      let gas_used := sub64 (tx_gas_limit t) gas_left in
      do _ <- cmd (OAddBalance (beneficiary header) (mul256 gas_used (priority_fee_per_gas t (base_fee header))));
      do _ <- suicides;
      do _ <- when (EVMC_SPURIOUS_DRAGON <=? rev) touched_dead;
      do _ <- fin OFinalize;
      let cumulative := add64 cumulative gas_used in
      do l <- lgs OLogs;
      ret (Some (mkReceipt (tx_typ t) (is_success (r_status r)) cumulative (logs_bloom keccak l) l, cumulative))
    | _ => ret None
    end.
  Fixpoint t_transactions (cumulative : N) (ts : list transaction) : prg (option (list receipt * validation_result)) :=
    match ts with
    | [] => ret (Some ([], kOk))
    | t :: ts =>
      do err <- t_validate cumulative t;
      match err with
      | kOk =>
        do r <- t_transaction cumulative t;
        match r with
        | None => ret None
        | Some (r, cumulative) =>
          do rest <- t_transactions cumulative ts;
          ret (match rest with None => None | Some (rs, err) => Some (r :: rs, err) end)
        end
      | _ => ret (Some ([], err))
      end
    end.
  Fixpoint t_ommers (miner : N) (ommers : list block_header) : prg N :=
    match ommers with
    | [] => ret miner
    | o :: t =>
      do _ <- cmd (OAddBalance (be_to_N (hd_beneficiary o)) (mul256 (sub64 (add64 8 (hd_number o)) (hd_number header)) (block_reward rev) / 8));
      t_ommers (add256 miner (block_reward rev / 32)) t
    end.
  Definition t_rewards (ommers : list block_header) : prg unit :=
    do miner <- t_ommers (block_reward rev) ommers; cmd (OAddBalance (beneficiary header) miner).
  (** The receipts and the verdict of the block; None: outside the model of the EVM. *)
  Definition t_block (root : list receipt -> bytes) (config : chain_config) (ts : list transaction) (ommers : list block_header)
      : script (option (list receipt * validation_result) * nat) :=
    (do _ <- match cfg_dao_block config with Some d => when (hd_number header =? d) t_transfer_balances | None => ret tt end;
     do r <- t_transactions 0 ts;
     match r with
     | None => ret None
     | Some (rs, kOk) =>
       do _ <- t_rewards ommers;
       let gas_used := match rs with [] => 0 | _ => rc_cumulative_gas_used (List.last rs (mkReceipt kLegacy false 0 [] [])) end in
       ret (Some (rs, if negb (gas_used =? hd_gas_used header) then kWrongBlockGas
                      else if (EVMC_BYZANTIUM <=? rev) && negb (bytes_eqb (root rs) (hd_receipts_root header)) then kWrongReceiptsRoot
                      else if negb (bytes_eqb (fold_left (fun b r => join_bloom b (rc_bloom r)) rs (repeat 0 256)) (hd_logs_bloom header)) then kWrongLogsBloom
                      else kOk))
     | Some (rs, err) => ret (Some (rs, err))
     end) O.
End Evm.
