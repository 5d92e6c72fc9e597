(** Model of core/silkworm/execution/{evm.cpp, address.cpp}: message calls, contract creation and the host
    interface. The bytecode interpreter (evmone) is not part of the repository: it is an arbitrary program over
    the host interface, one for every message and code. *)
From stdpp Require Import gmap.
From Coq Require Import ZArith.
From Verif Require Import Base RlpModel TypesModel ChainModel StateModel.

(** evmc_status_code, the values silkworm itself distinguishes; the other failures of the interpreter are [Other]. *)
Inductive status :=
| SUCCESS | REVERT | OUT_OF_GAS | INVALID_INSTRUCTION | CONTRACT_VALIDATION_FAILURE | PRECOMPILE_FAILURE
| INSUFFICIENT_BALANCE | Other (code : N).
Definition is_success (s : status) : bool := match s with SUCCESS => true | _ => false end.
Definition is_revert (s : status) : bool := match s with REVERT => true | _ => false end.

(** evmc_message. gas is int64_t ([Z]); flags is the EVMC_STATIC bit. *)
Inductive call_kind := KCall | KDelegatecall | KCallcode | KCreate | KCreate2.
Record message := mkMsg {
  m_kind : call_kind; m_static : bool; m_depth : N; m_gas : Z; m_destination : N; m_sender : N;
  m_input : bytes; m_value : N; m_salt : N
}.
(** evmc::result *)
Record result := mkRes { r_status : status; r_gas : Z; r_output : bytes; r_create_address : N }.
(** evmc_storage_status *)
Inductive storage_status := ST_UNCHANGED | ST_MODIFIED | ST_MODIFIED_AGAIN | ST_ADDED | ST_DELETED.

(** What the interpreter does with one message: a tree of host calls (evm.hpp:97-134) and a result. get_tx_context
    is constant within a transaction: the interpreter already knows it. *)
Inductive prog :=
| PDone (r : result)
| PAccountExists (a : N) (k : bool -> prog)
| PGetStorage (a key : N) (k : N -> prog)
| PSetStorage (a key v : N) (k : storage_status -> prog)
| PGetBalance (a : N) (k : N -> prog)
| PGetCodeSize (a : N) (k : N -> prog)
| PGetCodeHash (a : N) (k : bytes -> prog)
| PCopyCode (a offset size : N) (k : bytes -> prog)
| PSelfdestruct (a beneficiary : N) (k : prog)
| PCall (m : message) (k : result -> prog)
| PGetBlockHash (n : N) (k : bytes -> prog)
| PEmitLog (l : log) (k : prog)
| PAccessAccount (a : N) (k : bool -> prog)
| PAccessStorage (a key : N) (k : bool -> prog).

(** Outcome of a call: a result and the state it leaves; [NoFuel]: the model ran out of call depth; [Undefined]: top of an empty
    address stack. *)
Inductive outcome := Returns (r : result) (s : ibs) | NoFuel | Undefined.

(** static_cast between uint64_t and int64_t *)
Definition to_i64 (n : N) : Z := if n <? 2 ^ 63 then Z.of_N n else (Z.of_N n - 2 ^ 64)%Z.
Definition to_u64 (z : Z) : N := Z.to_N (z mod 2 ^ 64).

Section Address.
  Variable keccak : bytes -> bytes.
  (** execution/address.cpp:26-40 *)
  Definition create_preimage (caller nonce : N) : bytes :=
    encode_header (mkHeader true (1 + 20 + length_u64 nonce)) ++ encode_bytes (be_fixed 20 caller) ++ encode_u64 nonce.
  Definition create_address (caller nonce : N) : N := be_to_N (firstn 20 (skipn 12 (keccak (create_preimage caller nonce)))).
  (** execution/address.cpp:42-57 *)
  Definition create2_preimage (caller salt : N) (code_hash : bytes) : bytes :=
    [0xff] ++ be_fixed 20 caller ++ be_fixed 32 salt ++ firstn 32 code_hash.
  Definition create2_address (caller salt : N) (code_hash : bytes) : N :=
    be_to_N (firstn 20 (skipn 12 (keccak (create2_preimage caller salt code_hash)))).
End Address.

Section Evm.
  Variable keccak : bytes -> bytes.
  Variable db : db_reader.
  (** EVM::revision, evm.cpp:323: constant within a block *)
  Variable rev : N.
  (** gas and run of the precompiled contracts (precompiled.hpp), by number 1..9; gas returns uint64_t. *)
  Variable pre_gas : N -> bytes -> N -> N.
  Variable pre_run : N -> bytes -> option bytes.
  (** EvmHost::get_block_hash, see BlockHashModel. *)
  Variable block_hash : N -> bytes.
  Variable interp : message -> bytes -> prog.

  (** evm.cpp:325-335; precompiled.hpp: 4, 8, 9 contracts *)
  Definition number_of_precompiles : N :=
    if EVMC_ISTANBUL <=? rev then 9 else if EVMC_BYZANTIUM <=? rev then 8 else 4.
  (** evm.cpp:337-344: comparison of 20-byte big-endian addresses *)
  Definition is_precompiled (a : N) : bool := if a =? 0 then false else a <=? number_of_precompiles.

  (** evm.cpp:346-354 *)
  Definition host_account_exists (s : ibs) (a : N) : bool * ibs :=
    if EVMC_SPURIOUS_DRAGON <=? rev then let '(d, s) := is_dead db s a in (negb d, s) else exists_ db s a.
  (** evm.cpp:356-361; true = cold *)
  Definition host_access_account (s : ibs) (a : N) : bool * ibs :=
    if is_precompiled a then (false, s) else access_account s a.

  (** evm.cpp:371-444; protocol_param.hpp:30-41 *)
  Definition sload_cost : N := if EVMC_BERLIN <=? rev then 100 else if EVMC_ISTANBUL <=? rev then 800 else 200.
  Definition sstore_reset_gas : N := if EVMC_BERLIN <=? rev then 5000 - 2100 else 5000.
  Definition sstore_clears_refund : N := if EVMC_LONDON <=? rev then sstore_reset_gas + 1900 else 15000.
  Definition host_set_storage (s : ibs) (a key v : N) : storage_status * ibs :=
    let '(current, s) := get_current_storage db s a key in
    if current =? v then (ST_UNCHANGED, s)
    else
      let s := set_storage db s a key v in
      let eip1283 := (EVMC_ISTANBUL <=? rev) || (rev =? EVMC_CONSTANTINOPLE) in
      if negb eip1283 then
        if current =? 0 then (ST_ADDED, s)
        else if v =? 0 then (ST_DELETED, add_refund s 15000)
        else (ST_MODIFIED, s)
      else
        let '(original, s) := get_original_storage db s a key in
        if original =? current then
          if original =? 0 then (ST_ADDED, s)
          else (ST_MODIFIED, if v =? 0 then add_refund s sstore_clears_refund else s)
        else
          let s :=
            if negb (original =? 0) then
              let s := if current =? 0 then subtract_refund s sstore_clears_refund else s in
              if v =? 0 then add_refund s sstore_clears_refund else s
            else s in
          let s :=
            if original =? v then
              if original =? 0 then add_refund s (20000 - sload_cost) else add_refund s (sstore_reset_gas - sload_cost)
            else s in
          (ST_MODIFIED_AGAIN, s).

  (** evm.cpp:455-461 *)
  Definition host_get_code_hash (s : ibs) (a : N) : bytes * ibs :=
    let '(d, s) := is_dead db s a in if d then (zeros 32, s) else get_code_hash db s a.
  (** evm.cpp:463-474 *)
  Definition host_copy_code (s : ibs) (a offset size : N) : bytes * ibs :=
    let '(code, s) := get_code db s a in
    (if blen code <=? offset then [] else firstn (N.to_nat size) (skipn (N.to_nat offset) code), s).
  (** evm.cpp:476-480 *)
  Definition host_selfdestruct (s : ibs) (a beneficiary : N) : ibs :=
    let s := record_suicide s a in
    let '(b, s) := get_balance db s a in
    let s := add_to_balance db s beneficiary b in
    set_balance db s a 0.

  (** The interpreter against the host; [callf] is EvmHost::call. *)
  Fixpoint run (callf : message -> ibs -> outcome) (p : prog) (s : ibs) : outcome :=
    match p with
    | PDone r => Returns r s
    | PAccountExists a k => let '(b, s) := host_account_exists s a in run callf (k b) s
    | PGetStorage a key k => let '(v, s) := get_current_storage db s a key in run callf (k v) s
    | PSetStorage a key v k => let '(t, s) := host_set_storage s a key v in run callf (k t) s
    | PGetBalance a k => let '(v, s) := get_balance db s a in run callf (k v) s
    | PGetCodeSize a k => let '(c, s) := get_code db s a in run callf (k (blen c)) s
    | PGetCodeHash a k => let '(h, s) := host_get_code_hash s a in run callf (k h) s
    | PCopyCode a o n k => let '(c, s) := host_copy_code s a o n in run callf (k c) s
    | PSelfdestruct a b k => run callf k (host_selfdestruct s a b)
    | PCall m k => match callf m s with Returns r s => run callf (k r) s | NoFuel => NoFuel | Undefined => Undefined end
    | PGetBlockHash n k => run callf (k (block_hash n)) s
    | PEmitLog l k => run callf k (add_log s l)
    | PAccessAccount a k => let '(b, s) := host_access_account s a in run callf (k b) s
    | PAccessStorage a key k => let '(b, s) := access_storage s a key in run callf (k b) s
    end.

  (** [rec]: EvmHost::call with the given address_stack_ (top first). *)
  Section Body.
    Variable rec : list N -> message -> ibs -> outcome.

    (** evm.cpp:242-261 *)
    Definition execute (stack : list N) (m : message) (code : bytes) (s : ibs) : outcome :=
      run (rec (m_destination m :: stack)) (interp m code) s.

    (** evm.cpp:142-149 and 218-223: a failure is undone and, unless it is REVERT, takes the gas. *)
    Definition settle (n : snapshot) (r : result) (s : ibs) : outcome :=
      if is_success (r_status r) then Returns r s
      else Returns (if is_revert (r_status r) then r else mkRes (r_status r) 0 (r_output r) (r_create_address r)) (revert_to_snapshot s n).

    (** evm.cpp:124-140; protocol_param.hpp:43 (200 gas per byte), :56 (0x6000). code_len * 200 is size_t (2^64). *)
    Definition deploy (contract : N) (r : result) (s : ibs) : result * ibs :=
      if is_success (r_status r) then
        let code := r_output r in
        let code_deploy_gas := (blen code * 200) mod 2 ^ 64 in
        let fail st := mkRes st (r_gas r) code (r_create_address r) in
        if (EVMC_LONDON <=? rev) && match code with b :: _ => b =? 0xEF | [] => false end then (fail CONTRACT_VALIDATION_FAILURE, s)
        else if (EVMC_SPURIOUS_DRAGON <=? rev) && (0x6000 <? blen code) then (fail OUT_OF_GAS, s)
        else if (0 <=? r_gas r)%Z && (code_deploy_gas <=? Z.to_N (r_gas r)) then
          (mkRes SUCCESS (r_gas r - Z.of_N code_deploy_gas) code (r_create_address r), set_code keccak db s contract code)
        else if EVMC_HOMESTEAD <=? rev then (fail OUT_OF_GAS, s)
        else (r, s)
      else (r, s).

    (** evm.cpp:69-152. [fuelled] outcomes of the deployment are passed on. *)
    Definition create (stack : list N) (m : message) (s : ibs) : outcome :=
      let '(balance, s) := get_balance db s (m_sender m) in
      if balance <? m_value m then Returns (mkRes INSUFFICIENT_BALANCE (m_gas m) [] 0) s
      else
        let '(nonce, s) := get_nonce db s (m_sender m) in
        let s := set_nonce db s (m_sender m) ((nonce + 1) mod 2 ^ 64) in
        let contract :=
          match m_kind m with
          | KCreate2 => create2_address keccak (m_sender m) (m_salt m) (keccak (m_input m))
          | _ => create_address keccak (m_sender m) nonce
          end in
        let '(_, s) := access_account s contract in
        let '(cn, s) := get_nonce db s contract in
        let '(ch, s) := if negb (cn =? 0) then (kEmptyHash, s) else get_code_hash db s contract in
        if negb (cn =? 0) || negb (bytes_eqb ch kEmptyHash) then Returns (mkRes INVALID_INSTRUCTION 0 [] 0) s
        else
          let n := take_snapshot s in
          let s := create_contract db s contract in
          let s := if EVMC_SPURIOUS_DRAGON <=? rev then set_nonce db s contract 1 else s in
          let s := subtract_from_balance db s (m_sender m) (m_value m) in
          let s := add_to_balance db s contract (m_value m) in
          match execute stack (mkMsg KCall false (m_depth m) (m_gas m) contract (m_sender m) [] (m_value m) 0) (m_input m) s with
          | Returns r s =>
            let '(r, s) := deploy contract r s in
            settle n (if is_success (r_status r) then mkRes (r_status r) (r_gas r) (r_output r) contract else r) s
          | o => o
          end.

    (** evm.cpp:228-240 *)
    Definition recipient_of (stack : list N) (m : message) : option N :=
      match m_kind m with
      | KCallcode => Some (m_sender m)
      | KDelegatecall => hd_error stack
      | _ => Some (m_destination m)
      end.
    Definition with_destination (m : message) (a : N) : message :=
      mkMsg (m_kind m) (m_static m) (m_depth m) (m_gas m) a (m_sender m) (m_input m) (m_value m) (m_salt m).

    (** evm.cpp:189-203 *)
    Definition run_precompiled (m : message) : result :=
      let gas := to_i64 (pre_gas (m_destination m) (m_input m) rev) in
      if (gas <? 0)%Z || (m_gas m <? gas)%Z then mkRes OUT_OF_GAS (m_gas m) [] 0
      else match pre_run (m_destination m) (m_input m) with
           | Some out => mkRes SUCCESS (m_gas m - gas) out 0
           | None => mkRes PRECOMPILE_FAILURE (m_gas m) [] 0
           end.

    (** evm.cpp:154-226 *)
    Definition call (stack : list N) (m : message) (s : ibs) : outcome :=
      let '(poor, s) :=
        match m_kind m with
        | KDelegatecall => (false, s)
        | _ => let '(balance, s) := get_balance db s (m_sender m) in (balance <? m_value m, s)
        end in
      if poor then Returns (mkRes INSUFFICIENT_BALANCE (m_gas m) [] 0) s
      else
        match recipient_of stack m with
        | None => Undefined
        | Some recipient =>
          let code_address := m_destination m in
          let precompiled := is_precompiled code_address in
          let '(skip, s) :=
            if (m_value m =? 0) && (EVMC_SPURIOUS_DRAGON <=? rev) && negb precompiled
            then let '(e, s) := exists_ db s code_address in (negb e, s) else (false, s) in
          if skip then Returns (mkRes SUCCESS (m_gas m) [] 0) s
          else
            let n := take_snapshot s in
            let s :=
              match m_kind m with
              | KCall =>
                if m_static m then touch s recipient
                else add_to_balance db (subtract_from_balance db s (m_sender m) (m_value m)) recipient (m_value m)
              | _ => s
              end in
            if precompiled then settle n (run_precompiled m) s
            else
              let '(code, s) := get_code db s code_address in
              match code with
              | [] => Returns (mkRes SUCCESS (m_gas m) [] 0) s
              | _ =>
                let '(_, s) := get_code_hash db s code_address in
                match execute stack (with_destination m recipient) code s with
                | Returns r s => settle n r s
                | o => o
                end
              end
        end.

    (** evm.cpp:482-498 *)
    Definition host_call_body (stack : list N) (m : message) (s : ibs) : outcome :=
      match m_kind m with
      | KCreate | KCreate2 =>
        match create stack m s with
        | Returns r s => Returns (if is_revert (r_status r) then r else mkRes (r_status r) (r_gas r) [] (r_create_address r)) s
        | o => o
        end
      | _ => call stack m s
      end.
  End Body.

  (** EvmHost::call; [fuel] bounds the nesting. *)
  Fixpoint host_call (fuel : nat) (stack : list N) (m : message) (s : ibs) : outcome :=
    match fuel with
    | O => NoFuel
    | S fuel => host_call_body (host_call fuel) stack m s
    end.

  (** evm.cpp:45-67: the message of a transaction; destination is zero for a creation. *)
  Definition tx_message (to : option N) (from : N) (gas : N) (data : bytes) (value : N) : message :=
    mkMsg (match to with Some _ => KCall | None => KCreate end) false 0 (to_i64 gas) (default 0 to) from data value 0.
  Definition execute_txn (fuel : nat) (to : option N) (from gas : N) (data : bytes) (value : N) (s : ibs) : outcome :=
    let m := tx_message to from gas data value in
    match to with
    | None => create (host_call fuel) [] m s
    | Some _ => call (host_call fuel) [] m s
    end.
End Evm.
