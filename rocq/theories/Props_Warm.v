(** C85: warm and cold accesses while code runs. *)
From stdpp Require Import gmap.
From Coq Require Import ZArith.
From Verif Require Import Base TypesModel ChainModel StateModel EvmModel EvmSpec EvmCases WarmProofs.

Section Warm.
  Variable keccak : bytes -> bytes.
  Variable db : db_reader.
  Variable rev : N.
  Variable pre_gas : N -> bytes -> N -> N.
  Variable pre_run : N -> bytes -> option bytes.
  Variable block_hash : N -> bytes.
  Variable interp : message -> bytes -> prog.

  (** The code that asks for an account is told "cold" exactly when the account is not a precompiled contract and was not
      warm; afterwards it is warm, and nothing else changed. *)
  Theorem C85_account : forall callf a k s, exists cold s',
    run db rev block_hash callf (PAccessAccount a k) s = run db rev block_hash callf (k cold) s'
    /\ (cold = true <-> ~ (1 <= a <= number_of_precompiles rev) /\ a ∉ accessed_addresses s)
    /\ (forall x, x ∈ accessed_addresses s' <-> x ∈ accessed_addresses s \/ (x = a /\ ~ (1 <= a <= number_of_precompiles rev)))
    /\ accessed_keys s' = accessed_keys s /\ objects s' = objects s /\ storages s' = storages s /\ codes s' = codes s
    /\ logs s' = logs s /\ refund s' = refund s /\ self_destructs s' = self_destructs s /\ touched s' = touched s.
  Proof. exact (account_access db rev block_hash). Qed.
  (** The same for a slot. *)
  Theorem C85_slot : forall callf a j k s, exists cold s',
    run db rev block_hash callf (PAccessStorage a j k) s = run db rev block_hash callf (k cold) s'
    /\ (cold = true <-> (a, j) ∉ accessed_keys s)
    /\ (forall x, x ∈ accessed_keys s' <-> x ∈ accessed_keys s \/ x = (a, j))
    /\ accessed_addresses s' = accessed_addresses s /\ objects s' = objects s /\ storages s' = storages s /\ codes s' = codes s
    /\ logs s' = logs s /\ refund s' = refund s /\ self_destructs s' = self_destructs s /\ touched s' = touched s.
  Proof. exact (storage_access db rev block_hash). Qed.
  (** Nothing becomes cold again through a call or a creation, at any depth; one that fails leaves exactly what was warm
      before, except that the address of a contract whose creation was paid for stays warm. *)
  Theorem C85_call strict : (forall a k, read_storage db a 0 k = 0) -> lawful strict interp ->
    forall fuel stack m s r s', (0 <= m_gas m)%Z -> m_depth m <= 1024 -> valid_caller db stack m s ->
    host_call keccak db rev pre_gas pre_run block_hash interp fuel stack m s = Returns r s' ->
    (accessed_addresses s ⊆ accessed_addresses s' /\ accessed_keys s ⊆ accessed_keys s')
    /\ (r_status r <> SUCCESS -> accessed_keys s' = accessed_keys s
        /\ forall x, x ∈ accessed_addresses s' <-> x ∈ accessed_addresses s
             \/ (is_creation m = true /\ m_value m <= balance_of db s (m_sender m) /\ x = new_address keccak db m s)).
  Proof. exact (call_sets db rev block_hash keccak pre_gas pre_run interp strict). Qed.
End Warm.
Print Assumptions C85_account.
Print Assumptions C85_slot.
Print Assumptions C85_call.

(** The number of precompiled contracts by revision. *)
Example C85_precompiles : map number_of_precompiles [EVMC_FRONTIER; EVMC_HOMESTEAD; EVMC_BYZANTIUM; EVMC_ISTANBUL; EVMC_BERLIN; EVMC_LONDON] = [4; 4; 8; 9; 9; 9].
Proof. reflexivity. Qed.
(** Code that asks twice, asks for a precompiled contract and calls code that warms an account and fails. *)
Example C85_case : (forall a k, read_storage w_db a 0 k = 0) /\ lawful true w_interp /\ valid_caller w_db [] (e_msg 200 0) ibs_new
  /\ match w_call 1025 [] (e_msg 200 0) ibs_new with
     | Returns r s => r = mkRes SUCCESS 0 [1; 0; 0; 1; 0; 0; 1; 0] 0
         /\ map (fun a => bool_decide (a ∈ accessed_addresses s)) [9; 300; 400; 500] = [false; false; true; true]
         /\ map (fun p => bool_decide (p ∈ accessed_keys s)) [(200, 5); (300, 6)] = [true; false]
     | _ => False
     end.
Proof. exact w_case. Qed.
