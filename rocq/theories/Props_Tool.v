(** The commands that check a database: C80 check_blockhashes, C81 check_tx_lookup, C82 check_hashstate, C83 check_pow. *)
From Verif Require Import Base BlockModel BlockSpec RlpSpec DbTable DbModel DbSpec DbCases KeccakSpec EthashSpec EthashModel EthashCases ToolModel ToolSpec ToolProofs ToolLemmas ToolPow ToolCases.

(** C80: silent iff the hash of every canonical block leads back to its number; otherwise the reports name exactly the blocks for which it does not. *)
Theorem C80_reports d : wf_db d -> number_shapes d ->
  exists l, check_blockhashes d = Done l /\
    (l = [] <-> forall n hash, canonical_at d n hash -> numbered d hash n) /\
    (forall hash n, In (HashNotFound hash n) l <-> canonical_at d n hash /\ forall m, ~ numbered d hash m) /\
    (forall hash n m, In (HashMismatch hash n m) l <-> canonical_at d n hash /\ numbered d hash m /\ n <> m).
Proof. exact (blockhashes_reports d). Qed.
Print Assumptions C80_reports.
Example C80_case : wf_db hash_db /\ number_shapes hash_db /\ check_blockhashes hash_db = Done [HashMismatch (repeat 2 32) 1 5; HashNotFound (repeat 3 32) 2].
Proof. exact (conj (proj1 hash_db_ok) (conj (proj2 hash_db_ok) hash_db_reports)). Qed.

(** C81: where there is one body for each block from block 0 on, the command is silent iff every transaction is indexed under the number of its block.
    Missing: any other database, see the refutations. *)
Theorem C81_from_zero_partial keccak d : wf_db d -> lookup_shapes d -> bodies_from_zero d ->
  exists l, check_tx_lookup keccak d = Done l /\ (l = [] <-> lookup_right keccak d).
Proof. exact (tx_lookup_from_zero keccak d). Qed.
Print Assumptions C81_from_zero_partial.
(** C81: what it finds out in general: silent iff the transactions of the i-th body of the table are indexed under i. *)
Theorem C81_position_partial keccak d : wf_db d -> lookup_shapes d ->
  exists l, check_tx_lookup keccak d = Done l /\
    (l = [] <-> forall i k b, nth_error (d kBlockBodies) i = Some (k, RLP (stored_item b)) -> wf_stored b -> body_indexed keccak d b (N.of_nat i)).
Proof. exact (tx_lookup_exact keccak d). Qed.
Print Assumptions C81_position_partial.
(** C81 refuted: a right index is reported as wrong as soon as a body with transactions is not at the position of its number. *)
Theorem C81_false_alarm_refuted keccak d i n hash b : wf_db d -> lookup_shapes d -> lookup_right keccak d ->
  nth_error (d kBlockBodies) i = Some (be_fixed 8 n ++ hash, RLP (stored_item b)) -> n < 2 ^ 64 -> length hash = 32%nat -> wf_stored b -> 0 < sb_count b -> n <> N.of_nat i ->
  exists l, check_tx_lookup keccak d = Done l /\ l <> [].
Proof. exact (tx_lookup_false_alarm keccak d i n hash b). Qed.
Print Assumptions C81_false_alarm_refuted.
(** C81 refuted: a wrong index is passed in silence. *)
Theorem C81_missed_refuted keccak : wf_db (wrong_db keccak) /\ lookup_shapes (wrong_db keccak) /\ check_tx_lookup keccak (wrong_db keccak) = Done [] /\ ~ lookup_right keccak (wrong_db keccak).
Proof. exact (wrong_ok keccak). Qed.
Print Assumptions C81_missed_refuted.
Example C81_case keccak : wf_db (plain_db keccak) /\ lookup_shapes (plain_db keccak) /\ bodies_from_zero (plain_db keccak) /\ lookup_right keccak (plain_db keccak).
Proof. exact (plain_ok keccak). Qed.
(** Two competing bodies of block 1 move the body of block 2 to position 3. *)
Example C81_fork_case keccak : wf_db (fork_db keccak) /\ lookup_shapes (fork_db keccak) /\ lookup_right keccak (fork_db keccak) /\
  nth_error (fork_db keccak kBlockBodies) 3 = Some (be_fixed 8 2 ++ some_hash 4, RLP (stored_item (mkStored 0 1 []))) /\ wf_stored (mkStored 0 1 []).
Proof. exact (fork_ok keccak). Qed.

(** C82: the parts on accounts and on code are exact: silent iff every account and every code is found, unchanged, under its hashed key.
    Missing: storage, see the refutations. *)
Theorem C82_accounts_partial keccak d : wf_db d -> (check_accounts keccak (d kHashedAccounts) (d kPlainState) = Done [] <-> accounts_match keccak d).
Proof. exact (hashstate_accounts keccak d). Qed.
Print Assumptions C82_accounts_partial.
Theorem C82_codes_partial keccak d : wf_db d -> (check_codes keccak (d kContractCode) (d kPlainContractCode) = Done [] <-> codes_match keccak d).
Proof. exact (hashstate_codes keccak d). Qed.
Print Assumptions C82_codes_partial.
(** C82 refuted: on every database with an account, all hashed as they should be, the command reads beyond the end of a key. *)
Theorem C82_undefined_refuted keccak d a v : wf_db d -> account_in d a v -> accounts_match keccak d -> check_hashstate keccak d = Undefined.
Proof. exact (hashstate_undefined keccak d a v). Qed.
Print Assumptions C82_undefined_refuted.
(** C82 refuted: on the others its verdict depends on the code alone; the storage is not looked at. *)
Theorem C82_storage_refuted keccak d : wf_db d -> (forall a v, ~ account_in d a v) -> (check_hashstate keccak d = Done [] <-> codes_match keccak d).
Proof. exact (hashstate_blind keccak d). Qed.
Print Assumptions C82_storage_refuted.
Example C82_case keccak : wf_db (account_db keccak) /\ account_in (account_db keccak) an_address [1; 2] /\ accounts_match keccak (account_db keccak) /\
  codes_match keccak (account_db keccak) /\ slots_match keccak (account_db keccak).
Proof. exact (account_db_ok keccak). Qed.
Example C82_slot_case keccak : wf_db slot_db /\ (forall a v, ~ account_in slot_db a v) /\ check_hashstate keccak slot_db = Done [] /\ ~ slots_match keccak slot_db.
Proof. exact (slot_db_ok keccak). Qed.

(** C83: the command goes through the canonical headers from [from] to the smaller of [to] and the progress of the senders stage. If it reports nothing all of them are sealed;
    if it reports a block all before it are sealed and it is not, unless its difficulty divides 2^256 (where the target of the code is one too low, see C71_boundary_refuted).
    Missing: heights from 2^32 on and the exit status. *)
Theorem C83_range_partial d from to progress hs fuel : wf_db d -> get_stage_progress d kSendersKey = Done progress -> progress < 2 ^ 32 -> 1 <= from ->
  from / EPOCH_LENGTH < 32640 -> N.min to progress / EPOCH_LENGTH < 32640 ->
  (forall n, from <= n -> n <= N.min to progress -> canonical_block d n (hs n) /\ hd_number (hs n) = n /\ pow_ranges (hs n)) ->
  (N.to_nat (N.min to progress + 1 - from) <= fuel)%nat ->
  exists r, check_pow (keccak_digest 256) fuel d from to = Some (Done r) /\
    match r with
    | None => forall m, from <= m -> m <= N.min to progress -> pow_seal (hs m)
    | Some x => exists k, (x = AboveTarget k \/ x = WrongMixHash k) /\ from <= k /\ k <= N.min to progress /\ (forall m, from <= m -> m < k -> pow_seal (hs m)) /\
                (hd_difficulty (hs k) = 1 \/ ~ N.divide (hd_difficulty (hs k)) (2 ^ 256) -> ~ pow_seal (hs k))
    end.
Proof. exact (check_pow_ok d from to progress hs fuel). Qed.
Print Assumptions C83_range_partial.
(** C83 refuted: a header without seal is reported but the command ends with status 0. *)
Theorem C83_status_refuted d from to progress hs fuel : wf_db d -> get_stage_progress d kSendersKey = Done progress -> progress < 2 ^ 32 -> 1 <= from ->
  from / EPOCH_LENGTH < 32640 -> N.min to progress / EPOCH_LENGTH < 32640 ->
  (forall n, from <= n -> n <= N.min to progress -> canonical_block d n (hs n) /\ hd_number (hs n) = n /\ pow_ranges (hs n)) ->
  (N.to_nat (N.min to progress + 1 - from) <= fuel)%nat -> (exists n, from <= n /\ n <= N.min to progress /\ ~ pow_seal (hs n)) ->
  exists r x, check_pow (keccak_digest 256) fuel d from to = Some r /\ r = Done (Some x) /\ check_pow_status r = Some 0.
Proof. exact (check_pow_status_zero d from to progress hs fuel). Qed.
Print Assumptions C83_status_refuted.
(** C83 refuted: with a chain of 2^32 * k blocks nothing is checked, whatever the headers. *)
Theorem C83_height_refuted d from to k fuel : get_stage_progress d kSendersKey = Done (2 ^ 32 * k) -> 1 <= from -> from / EPOCH_LENGTH < 32640 ->
  check_pow (keccak_digest 256) fuel d from to = Some (Done None).
Proof. exact (check_pow_high d from to k fuel). Qed.
Print Assumptions C83_height_refuted.
(** A database with one header; two of them that differ in the mix hash only, of which at most one is sealed; the difficulty is no power of two. *)
Example C83_case x : x < 256 -> wf_db (pow_db (repeat x 32)) /\ get_stage_progress (pow_db (repeat x 32)) kSendersKey = Done 12965000 /\
  (forall n, 12965000 <= n -> n <= N.min 12965000 12965000 -> canonical_block (pow_db (repeat x 32)) n (with_mix (repeat x 32)) /\ hd_number (with_mix (repeat x 32)) = n /\ pow_ranges (with_mix (repeat x 32))).
Proof. exact (pow_db_ok x). Qed.
Example C83_unsealed : pow_seal (with_mix (repeat 7 32)) -> ~ pow_seal (with_mix (repeat 9 32)).
Proof. exact one_unsealed. Qed.
Example C83_difficulty : hd_difficulty (with_mix (repeat 7 32)) = 1 \/ ~ N.divide (hd_difficulty (with_mix (repeat 7 32))) (2 ^ 256).
Proof. exact odd_difficulty. Qed.
Example C83_height_case : get_stage_progress (put empty_db kSyncStageProgress kSendersKey (be_fixed 8 (2 ^ 32 * 3))) kSendersKey = Done (2 ^ 32 * 3).
Proof. vm_compute. reflexivity. Qed.
