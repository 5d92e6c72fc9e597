(** C33 message calls, C34 refunds, C35 precompiled contracts, C36 contract addresses, C58 block hashes. *)
From stdpp Require Import gmap.
From Coq Require Import ZArith.
From Verif Require Import Base RlpSpec TypesModel TxModel BlockModel ChainModel StateModel EvmModel EvmSpec EvmProofs EvmLemmas
  PrecompileModel PrecompileSpec PrecompileProofs RefundSpec RefundProofs BlockHashModel BlockHashSpec BlockHashProofs AddressProofs EvmCases.

Section Calls.
  Variable keccak : bytes -> bytes.
  Variable db : db_reader.
  Variable rev : N.
  Variable pre_gas : N -> bytes -> N -> N.
  Variable pre_run : N -> bytes -> option bytes.
  Variable block_hash : N -> bytes.
  Variable interp : message -> bytes -> prog.
  Notation hcall := (host_call keccak db rev pre_gas pre_run block_hash interp).
  Notation etxn := (execute_txn keccak db rev pre_gas pre_run block_hash interp).

  (** C33: a call or a creation that fails, at any depth and whatever ran inside, leaves no trace, except that a creation
      with enough balance keeps the incremented nonce (and the warm address). *)
  Theorem C33_failed_no_trace strict : (forall a k, read_storage db a 0 k = 0) -> lawful strict interp ->
    forall fuel stack m s r s', (0 <= m_gas m)%Z -> m_depth m <= 1024 -> valid_caller db stack m s ->
    hcall fuel stack m s = Returns r s' -> r_status r <> SUCCESS ->
    if is_creation m then unchanged db (if balance_of db s (m_sender m) <? m_value m then s else creation_attempted keccak db m s) s'
    else unchanged db s s'.
  Proof. exact (failed_no_trace keccak db rev pre_gas pre_run block_hash interp strict). Qed.

  (** C33: no call creates ether; without self-destruction in favour of oneself none disappears. *)
  Theorem C33_supply strict : (forall a k, read_storage db a 0 k = 0) -> lawful strict interp ->
    forall fuel stack m s r s' t, (0 <= m_gas m)%Z -> m_depth m <= 1024 -> valid_caller db stack m s ->
    hcall fuel stack m s = Returns r s' -> total (balance_of db s) t -> t < 2 ^ 256 ->
    exists t', total (balance_of db s') t' /\ t' <= t /\ (strict = true -> t' = t).
  Proof. exact (supply_kept keccak db rev pre_gas pre_run block_hash interp strict). Qed.

  (** C33: a call to an account without code moves exactly its value. *)
  Theorem C33_plain_transfer : (forall a k, read_storage db a 0 k = 0) ->
    forall fuel stack m s t, m_kind m = KCall -> m_static m = false ->
    is_precompiled rev (m_destination m) = false -> fst (get_code db s (m_destination m)) = [] ->
    m_value m <= balance_of db s (m_sender m) -> total (balance_of db s) t -> t < 2 ^ 256 ->
    exists s', hcall (S fuel) stack m s = Returns (mkRes SUCCESS (m_gas m) [] 0) s'
      /\ (forall x, balance_of db s' x = moved (balance_of db s) (m_sender m) (m_destination m) (m_value m) x) /\ only_balances db s s'.
  Proof. exact (plain_transfer keccak db rev pre_gas pre_run block_hash interp). Qed.

  (** C33: a call to a contract moves exactly its value and then runs the code of the recipient; its effects stay if
      and only if it succeeds. *)
  Theorem C33_code_transfer : (forall a k, read_storage db a 0 k = 0) ->
    forall fuel stack m s t, m_kind m = KCall -> m_static m = false ->
    is_precompiled rev (m_destination m) = false -> fst (get_code db s (m_destination m)) <> [] ->
    m_value m <= balance_of db s (m_sender m) -> total (balance_of db s) t -> t < 2 ^ 256 ->
    exists s1, (forall x, balance_of db s1 x = moved (balance_of db s) (m_sender m) (m_destination m) (m_value m) x) /\ only_balances db s s1
      /\ hcall (S fuel) stack m s =
         match run db rev block_hash (hcall fuel (m_destination m :: stack)) (interp m (fst (get_code db s (m_destination m)))) s1 with
         | Returns r s2 =>
           match r_status r with
           | SUCCESS => Returns r s2
           | REVERT => Returns r (match hcall (S fuel) stack m s with Returns _ s3 => s3 | _ => s end)
           | st => Returns (mkRes st 0 (r_output r) (r_create_address r)) (match hcall (S fuel) stack m s with Returns _ s3 => s3 | _ => s end)
           end
         | o => o
         end.
  Proof. exact (code_transfer keccak db rev pre_gas pre_run block_hash interp). Qed.

  (** C33: a call to a precompiled contract moves its value and charges the gas of the contract. *)
  Theorem C33_precompiled : (forall a k, read_storage db a 0 k = 0) ->
    forall fuel stack m s t out, m_kind m = KCall -> m_static m = false ->
    is_precompiled rev (m_destination m) = true -> pre_gas (m_destination m) (m_input m) rev < 2 ^ 63 ->
    (Z.of_N (pre_gas (m_destination m) (m_input m) rev) <= m_gas m)%Z -> pre_run (m_destination m) (m_input m) = Some out ->
    m_value m <= balance_of db s (m_sender m) -> total (balance_of db s) t -> t < 2 ^ 256 ->
    exists s', hcall (S fuel) stack m s = Returns (mkRes SUCCESS (m_gas m - Z.of_N (pre_gas (m_destination m) (m_input m) rev)) out 0) s'
      /\ (forall x, balance_of db s' x = moved (balance_of db s) (m_sender m) (m_destination m) (m_value m) x) /\ only_balances db s s'.
  Proof. exact (precompiled_call keccak db rev pre_gas pre_run block_hash interp). Qed.

  (** C33: nothing is ever overdrawn: a value beyond the balance of the sender is refused. *)
  Theorem C33_insufficient : (forall a k, read_storage db a 0 k = 0) -> forall fuel stack m s, m_kind m <> KDelegatecall -> balance_of db s (m_sender m) < m_value m ->
    exists s', hcall (S fuel) stack m s = Returns (mkRes INSUFFICIENT_BALANCE (m_gas m) [] 0) s' /\ unchanged db s s'.
  Proof. exact (insufficient keccak db rev pre_gas pre_run block_hash interp). Qed.

  (** C33: a creation that succeeds was affordable, made a contract where there was none, and installed code within the
      limits of EIP-170 and EIP-3541. *)
  Theorem C33_created : (forall a k, read_storage db a 0 k = 0) ->
    forall fuel stack m s r s', is_creation m = true -> hcall (S fuel) stack m s = Returns r s' -> r_status r = SUCCESS ->
    r_create_address r = new_address keccak db m s
    /\ m_value m <= balance_of db s (m_sender m)
    /\ (new_address keccak db m s <> m_sender m -> nonce_of db s (new_address keccak db m s) = 0 /\ code_hash_of db s (new_address keccak db m s) = kEmptyHash)
    /\ (EVMC_HOMESTEAD <= rev -> exists code, code_hash_of db s' (new_address keccak db m s) = keccak code
          /\ (EVMC_SPURIOUS_DRAGON <= rev -> blen code <= 24576) /\ (EVMC_LONDON <= rev -> hd_error code <> Some 0xEF)).
  Proof. exact (created keccak db rev pre_gas pre_run block_hash interp). Qed.

  (** C33: a call returns between 0 and the gas it was given, and always returns: depth 1024 bounds the recursion. *)
  Theorem C33_gas strict : (forall a k, read_storage db a 0 k = 0) -> lawful strict interp ->
    forall fuel stack m s r s', (0 <= m_gas m)%Z -> m_depth m <= 1024 -> valid_caller db stack m s ->
    hcall fuel stack m s = Returns r s' -> (0 <= r_gas r <= m_gas m)%Z.
  Proof. exact (gas_bounds keccak db rev pre_gas pre_run block_hash interp strict). Qed.
  Theorem C33_returns strict : (forall a k, read_storage db a 0 k = 0) -> lawful strict interp ->
    forall fuel stack m s, (0 <= m_gas m)%Z -> m_depth m <= 1024 -> valid_caller db stack m s -> 1025 <= N.of_nat fuel + m_depth m ->
    exists r s', hcall fuel stack m s = Returns r s'.
  Proof. exact (call_returns keccak db rev pre_gas pre_run block_hash interp strict). Qed.

  (** C33: the same for the message of a transaction. *)
  Theorem C33_transaction strict : (forall a k, read_storage db a 0 k = 0) -> lawful strict interp ->
    forall fuel to from gas data value s t, gas < 2 ^ 63 -> (1024 <= fuel)%nat -> total (balance_of db s) t -> t < 2 ^ 256 ->
    exists r s', etxn fuel to from gas data value s = Returns r s' /\ (0 <= r_gas r <= Z.of_N gas)%Z
      /\ (exists t', total (balance_of db s') t' /\ t' <= t /\ (strict = true -> t' = t))
      /\ (r_status r <> SUCCESS ->
          if is_creation (tx_message to from gas data value)
          then unchanged db (if balance_of db s from <? value then s else creation_attempted keccak db (tx_message to from gas data value) s) s'
          else unchanged db s s').
  Proof. exact (txn_final keccak db rev pre_gas pre_run block_hash interp strict). Qed.
End Calls.
Print Assumptions C33_failed_no_trace.
Print Assumptions C33_supply.
Print Assumptions C33_plain_transfer.
Print Assumptions C33_code_transfer.
Print Assumptions C33_precompiled.
Print Assumptions C33_insufficient.
Print Assumptions C33_created.
Print Assumptions C33_gas.
Print Assumptions C33_returns.
Print Assumptions C33_transaction.

(** An interpreter that writes storage, calls on and creates satisfies the hypotheses, and runs with it. *)
Example C33_case_lawful : lawful true e_interp /\ (forall a k, read_storage e_db a 0 k = 0) /\ total (balance_of e_db ibs_new) 1050.
Proof. split; [exact e_lawful|]. split; [exact e_fresh|exact e_total]. Qed.
Example C33_case_nested : match e_call 1025 [] (e_msg 200 30) ibs_new with
  | Returns r s => r = mkRes SUCCESS 50000 [] 0 /\ map (balance_of e_db s) [100; 200; 300] = [970; 60; 20]
      /\ fst (get_current_storage e_db s 200 5) = 9
  | _ => False end.
Proof. exact e_nested. Qed.
Example C33_case_overdraw : match e_call2 1025 [] (e_msg 200 19) ibs_new with
  | Returns r s => r = mkRes INSUFFICIENT_BALANCE 0 [] 0 /\ map (balance_of e_db2 s) [100; 200; 300] = [1000; 0; 0]
      /\ fst (get_current_storage e_db2 s 200 5) = 7
  | _ => False end.
Proof. exact e_overdraw. Qed.
Example C33_case_created : match e_call 1025 [] (e_create [9]) ibs_new with
  | Returns r s => r = mkRes SUCCESS (100000 - 200) [] (new_address e_hash e_db (e_create [9]) ibs_new) /\ balance_of e_db s 100 = 960
      /\ balance_of e_db s (r_create_address r) = 40 /\ nonce_of e_db s 100 = 4 /\ code_hash_of e_db s (r_create_address r) = e_hash [1]
  | _ => False end.
Proof. exact e_created. Qed.
Example C33_case_create_failed : match e_call 1025 [] (e_create [2]) ibs_new with
  | Returns r s => r_status r = INVALID_INSTRUCTION /\ balance_of e_db s 100 = 1000 /\ nonce_of e_db s 100 = 4
      /\ existing e_db s (new_address e_hash e_db (e_create [2]) ibs_new) = false
  | _ => False end.
Proof. exact e_create_failed. Qed.

(** C34: any writes to any slots of existing accounts, inside any nesting of kept and reverted frames, in every
    revision: the statuses, the refund counter and the values are those of the EIPs; the counter never goes below zero
    nor wraps. *)
Theorem C34_refunds db rev x s : (forall a, In a (writers x) -> existing db s a = true) -> refund s = 0 ->
  (forall a k, fst (get_current_storage db s a k) = fst (get_original_storage db s a k)) -> 20000 * writes x < 2 ^ 64 ->
  let orig := fun a k => fst (get_original_storage db s a k) in
  let w := account_for rev orig x (mkAcc orig 0 []) in
  let '(s', l) := perform db rev x (s, []) in
  l = statuses w /\ Z.of_N (refund s') = counter w /\ (0 <= counter w)%Z
  /\ forall a k, existing db s a = true -> fst (get_current_storage db s' a k) = values w a k.
Proof. exact (refund_ok db rev x s). Qed.
Print Assumptions C34_refunds.
(** C34: every transaction starts like that: the refund counter is zero and the values are the original ones. *)
Theorem C34_boundary db s a k : let s' := clear_journal_and_substate (finalize_transaction s) in
  refund s' = 0 /\ fst (get_current_storage db s' a k) = fst (get_original_storage db s' a k).
Proof. exact (boundary_fresh db s a k). Qed.
Print Assumptions C34_boundary.
Example C34_case : (forall a, In a (writers e_script) -> existing e_db ibs_new a = true) /\ refund ibs_new = 0
  /\ (forall a k, fst (get_current_storage e_db ibs_new a k) = fst (get_original_storage e_db ibs_new a k)) /\ 20000 * writes e_script < 2 ^ 64.
Proof. exact e_script_case. Qed.
Example C34_case_values : map (fun rev => refund (fst (perform e_db rev e_script (ibs_new, []))))
  [EVMC_FRONTIER; EVMC_CONSTANTINOPLE; EVMC_PETERSBURG; EVMC_ISTANBUL; EVMC_BERLIN; EVMC_LONDON] = [30000; 24600; 30000; 23400; 22700; 22700].
Proof. exact e_refunds. Qed.

(** C35: the gas of every precompiled contract is the price of the protocol; beyond 2^62 (which no gas limit allows) it
    is beyond 2^62 too. *)
Theorem C35_gas rev input n first price : wf_bytes input -> blen input < 2 ^ 48 -> In (n, first, price) (gas_table rev input) ->
  exists g, precompile_gas n input rev = Some g /\ N.min g (2 ^ 62) = N.min price (2 ^ 62) /\ g < 2 ^ 64 /\ (price < 2 ^ 62 -> g = price).
Proof. exact (gas_ok rev input n first price). Qed.
Print Assumptions C35_gas.
(** C35: the active contracts are those of the revision. *)
Theorem C35_active rev input a : is_precompiled rev a = true <-> exists first price, In (a, first, price) (gas_table rev input) /\ first <= rev.
Proof. exact (active_ok rev input a). Qed.
Print Assumptions C35_active.
(** C35: the modular exponentiation contract returns the power, padded to the length of the modulus. *)
Theorem C35_modexp input : wf_bytes input ->
  let bl := be_to_N (field input 0 32) in let el := be_to_N (field input 32 32) in let ml := be_to_N (field input 64 32) in
  (ml = 0 \/ bl + el + ml < 2 ^ 64) -> expmod_run input = Some (modexp input).
Proof. exact (modexp_ok input). Qed.
Print Assumptions C35_modexp.
Example C35_case : precompile_gas 5 (be_fixed 32 1 ++ be_fixed 32 2 ++ be_fixed 32 1 ++ [3; 1; 0; 7]) EVMC_BERLIN = Some 200
  /\ precompile_gas 5 (be_fixed 32 64 ++ be_fixed 32 (2 ^ 40) ++ be_fixed 32 64) EVMC_BYZANTIUM = Some (64 * 64 * (8 * (2 ^ 40 - 32)) / 20)
  /\ expmod_run (be_fixed 32 1 ++ be_fixed 32 1 ++ be_fixed 32 2 ++ [3; 5; 0; 7]) = Some [0; 5]
  /\ wf_bytes (be_fixed 32 1 ++ be_fixed 32 1 ++ be_fixed 32 2 ++ [3; 5; 0; 7]).
Proof. split; [vm_compute; reflexivity|]. split; [vm_compute; reflexivity|]. split; [vm_compute; reflexivity|]. repeat constructor. Qed.

(** C36: what create_address hashes is the RLP of (caller, nonce), create2_address hashes 0xff, caller, salt, hash. *)
Theorem C36_create_rlp c n : n < 2 ^ 64 -> create_preimage c n = RLP (Lst [Str (be_fixed 20 c); Num n]).
Proof. exact (create_preimage_rlp c n). Qed.
Print Assumptions C36_create_rlp.
Theorem C36_create2_form c s h : blen h = 32 -> create2_preimage c s h = 0xff :: be_fixed 20 c ++ be_fixed 32 s ++ h /\ blen (create2_preimage c s h) = 85.
Proof. exact (create2_preimage_form c s h). Qed.
Print Assumptions C36_create2_form.
(** C36: both are injective and never coincide. *)
Theorem C36_create_injective c n c' n' : c < 2 ^ 160 -> c' < 2 ^ 160 -> n < 2 ^ 64 -> n' < 2 ^ 64 ->
  create_preimage c n = create_preimage c' n' -> c = c' /\ n = n'.
Proof. exact (create_preimage_inj c n c' n'). Qed.
Print Assumptions C36_create_injective.
Theorem C36_create2_injective c s h c' s' h' : c < 2 ^ 160 -> c' < 2 ^ 160 -> s < 2 ^ 256 -> s' < 2 ^ 256 -> blen h = 32 -> blen h' = 32 ->
  create2_preimage c s h = create2_preimage c' s' h' -> c = c' /\ s = s' /\ h = h'.
Proof. exact (create2_preimage_inj c s h c' s' h'). Qed.
Print Assumptions C36_create2_injective.
Theorem C36_disjoint c n c' s h : n < 2 ^ 64 -> create_preimage c n <> create2_preimage c' s h.
Proof. exact (preimages_disjoint c n c' s h). Qed.
Print Assumptions C36_disjoint.
(** C36: and the address is the last 20 bytes of the hash. *)
Theorem C36_address (keccak : bytes -> bytes) c n s h : blen (keccak (create_preimage c n)) = 32 -> blen (keccak (create2_preimage c s h)) = 32 ->
  create_address keccak c n = be_to_N (skipn 12 (keccak (create_preimage c n)))
  /\ create2_address keccak c s h = be_to_N (skipn 12 (keccak (create2_preimage c s h))).
Proof. exact (address_last20 keccak c n s h). Qed.
Print Assumptions C36_address.
Example C36_case : create_preimage 0x6ac7ea33f8831ea9dcc53393aaa88b25a785dbf0 1 = [0xd6; 0x94] ++ be_fixed 20 0x6ac7ea33f8831ea9dcc53393aaa88b25a785dbf0 ++ [1]
  /\ create_preimage 5 0 <> create_preimage 5 128.
Proof. split; [vm_compute; reflexivity|]. vm_compute. discriminate. Qed.

(** C58: the host answers any sequence of BLOCKHASH queries for the 256 most recent ancestors with the hashes of the
    chain. *)
Theorem C58_chain read_header header hash c ns : hd_number header < 2 ^ 64 -> linked hash read_header c (hd_number header) ->
  c (hd_number header) = header -> (forall n, In n ns -> n < hd_number header <= n + 256) ->
  queries read_header header [] ns = Some (map (fun n => hash (c n)) ns).
Proof. exact (blockhash_chain read_header header hash c ns). Qed.
Print Assumptions C58_chain.
(** C58: also when headers are missing in the database, which gives zero from there on. *)
Theorem C58_any_database read_header header ns : hd_number header < 2 ^ 64 -> (forall m, read_header m (zeros 32) = None) ->
  (forall n, In n ns -> n < hd_number header <= n + 256) ->
  queries read_header header [] ns = Some (map (fun n => ancestor read_header header (N.to_nat (hd_number header - n))) ns).
Proof. exact (blockhash_any read_header header ns). Qed.
Print Assumptions C58_any_database.
Example C58_case : linked c_hash c_read c_header 300 /\ queries c_read (c_header 300) [] [290; 299; 44; 290; 100] = Some (map (fun n => be_fixed 32 (n + 1)) [290; 299; 44; 290; 100]).
Proof. split; [exact c_linked|]. vm_compute. reflexivity. Qed.
