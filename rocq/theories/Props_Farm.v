(** C55: recovering the senders of a chain with a farm of workers. *)
From Coq Require Import Strings.String.
From Verif Require Import Base TxModel BlockModel ChainModel DbTable DbModel DbSpec EtlModel EtlSpec EtlLemmas FarmModel FarmSpec FarmCases FarmWitness.
Open Scope list_scope.
Open Scope N_scope.

(** Whatever the interleaving, when recover returns it says success and has stored the senders of a prefix of the waiting blocks, each under its own
    number and hash, provided every block has transactions. Missing: that the prefix is the whole chain (see below). *)
Theorem C55_stored_partial keccak recover pick max_workers d c max from blocks height_from height_to r d' :
  (forall x, length (keccak x) = 32%nat) -> (forall h s p k, recover h s p = Some k -> exists x, k = 4 :: x) -> least_first pick ->
  waiting_chain keccak recover d c max from blocks -> from + N.of_nat (length blocks) - 1 <= height_to -> (forall b, In b blocks -> b_txs b <> []) ->
  returns keccak recover pick max max_workers c d height_from height_to r d' -> r = kStageSuccess /\ exists m, (m <= length blocks)%nat /\ senders_stored d from blocks m d'.
Proof. exact (fun Hk Hr Pk W Ht F R => stored_prefix keccak recover Hk Hr pick Pk max_workers d c max from blocks W height_from height_to Ht r d' F R). Qed.
Print Assumptions C55_stored_partial.

(** Everything is stored if all batches are complete when the farm collects for the last time. *)
Theorem C55_complete_partial keccak recover pick max_workers d c max from blocks height_from height_to hs bs f1 f :
  (forall x, length (keccak x) = 32%nat) -> (forall h s p k, recover h s p = Some k -> exists x, k = 4 :: x) -> least_first pick ->
  waiting_chain keccak recover d c max from blocks -> from + N.of_nat (length blocks) - 1 <= height_to -> (forall b, In b blocks -> b_txs b <> []) ->
  prepare keccak max c d height_from height_to = Done (inr (hs, (bs, E_finish))) ->
  run keccak recover (max * 20) max_workers E_finish (initial hs bs) f1 -> f_main f1 = M_last -> f_completed f1 = length bs ->
  run keccak recover (max * 20) max_workers E_finish f1 f -> f_main f = M_end -> exists d', conclude pick d f = Done (kStageSuccess, d') /\ senders_stored d from blocks (length blocks) d'.
Proof. exact (fun Hk Hr Pk W Ht F P R1 M1 C1 R2 M2 => stored_all keccak recover Hk Hr pick Pk max_workers d c max from blocks W height_from height_to Ht f1 f F hs bs P R1 M1 C1 R2 M2). Qed.
Print Assumptions C55_complete_partial.

(** One batch: there is an interleaving with which everything is stored ... *)
Theorem C55_one_batch_partial keccak recover pick max_workers d c max from blocks height_from height_to :
  (forall x, length (keccak x) = 32%nat) -> (forall h s p k, recover h s p = Some k -> exists x, k = 4 :: x) -> least_first pick ->
  waiting_chain keccak recover d c max from blocks -> from + N.of_nat (length blocks) - 1 <= height_to -> (forall b, In b blocks -> b_txs b <> []) -> count blocks <= max ->
  exists d', returns keccak recover pick max max_workers c d height_from height_to kStageSuccess d' /\ senders_stored d from blocks (length blocks) d'.
Proof. exact (fun Hk Hr Pk W Ht F L => can_store_all keccak recover Hk Hr pick Pk max_workers d c max from blocks W height_from height_to Ht F L). Qed.
Print Assumptions C55_one_batch_partial.
(** ... one with which nothing is stored though recover says success: the status is set before the batch is announced as complete ... *)
Theorem C55_lost_refuted keccak recover pick max_workers d c max from blocks height_from height_to :
  (forall x, length (keccak x) = 32%nat) -> (forall h s p k, recover h s p = Some k -> exists x, k = 4 :: x) ->
  waiting_chain keccak recover d c max from blocks -> from + N.of_nat (length blocks) - 1 <= height_to -> 0 < count blocks -> count blocks <= max ->
  returns keccak recover pick max max_workers c d height_from height_to kStageSuccess d.
Proof. exact (fun Hk Hr W Ht L0 L => success_without_storing keccak recover Hk Hr pick max_workers d c max from blocks W height_from height_to Ht L0 L). Qed.
Print Assumptions C55_lost_refuted.
(** ... and one with which it never returns: the new worker clears the kick it has just been given. *)
Theorem C55_hang_refuted keccak recover max_workers d c max from blocks height_from height_to :
  (forall x, length (keccak x) = 32%nat) -> (forall h s p k, recover h s p = Some k -> exists x, k = 4 :: x) ->
  waiting_chain keccak recover d c max from blocks -> from + N.of_nat (length blocks) - 1 <= height_to -> 0 < count blocks -> count blocks <= max ->
  hangs keccak recover max max_workers c d height_from height_to.
Proof. exact (fun Hk Hr W Ht L0 L => can_hang keccak recover Hk Hr max_workers d c max from blocks W height_from height_to Ht L0 L). Qed.
Print Assumptions C55_hang_refuted.
(** More than one batch: there is an interleaving with which it throws ... *)
Theorem C55_throw_refuted keccak recover pick max_workers d c max from blocks height_from height_to :
  (forall x, length (keccak x) = 32%nat) -> (forall h s p k, recover h s p = Some k -> exists x, k = 4 :: x) ->
  waiting_chain keccak recover d c max from blocks -> from + N.of_nat (length blocks) - 1 <= height_to -> max < count blocks ->
  throws keccak recover pick max max_workers c d height_from height_to.
Proof. exact (fun Hk Hr W Ht L => can_throw keccak recover Hk Hr pick max_workers d c max from blocks W height_from height_to Ht L). Qed.
Print Assumptions C55_throw_refuted.
(** ... and with more transactions than all the workers take in one batch each, no interleaving lets it return. *)
Theorem C55_overload_refuted keccak recover pick max_workers d c max from blocks height_from height_to r d' :
  (forall x, length (keccak x) = 32%nat) -> (forall h s p k, recover h s p = Some k -> exists x, k = 4 :: x) -> least_first pick ->
  waiting_chain keccak recover d c max from blocks -> from + N.of_nat (length blocks) - 1 <= height_to -> (1 <= max_workers)%nat -> N.of_nat max_workers * max < count blocks ->
  ~ returns keccak recover pick max max_workers c d height_from height_to r d'.
Proof. exact (fun Hk Hr Pk W Ht Lw L => never_returns keccak recover Hk Hr pick Pk max_workers d c max from blocks W height_from height_to Ht r d' Lw L). Qed.
Print Assumptions C55_overload_refuted.
(** After a block without transactions, no later block has senders: theirs are stored under the hash of an earlier block. *)
Theorem C55_empty_block_refuted keccak recover pick max_workers d c max from blocks height_from height_to i j a b r d' :
  (forall x, length (keccak x) = 32%nat) -> (forall h s p k, recover h s p = Some k -> exists x, k = 4 :: x) -> least_first pick ->
  waiting_chain keccak recover d c max from blocks -> from + N.of_nat (length blocks) - 1 <= height_to -> List.NoDup (map b_hash blocks) ->
  nth_error blocks i = Some a -> b_txs a = [] -> nth_error blocks j = Some b -> (i < j)%nat ->
  returns keccak recover pick max max_workers c d height_from height_to r d' -> r = kStageSuccess /\ read_senders d' (b_number b) (b_hash b) = Done [].
Proof. exact (fun Hk Hr Pk W Ht Nd Ea Ta Eb L R => empty_block_shifts keccak recover Hk Hr pick Pk max_workers d c max from blocks W height_from height_to Ht i j a b r d' Nd Ea Ta Eb L R). Qed.
Print Assumptions C55_empty_block_refuted.
(** A batch from which no key can be recovered: recover can return, and always stores nothing and says success. *)
Theorem C55_failure_refuted keccak recover pick max max_workers c d height_from height_to hs b :
  prepare keccak max c d height_from height_to = Done (inr (hs, ([b], E_finish))) -> work keccak recover (max * 20) b = Failed ->
  returns keccak recover pick max max_workers c d height_from height_to kStageSuccess d /\ forall r d', returns keccak recover pick max max_workers c d height_from height_to r d' -> d' = d.
Proof. exact (failure_success keccak recover pick max max_workers c d height_from height_to hs b). Qed.
Print Assumptions C55_failure_refuted.
(** A range that ends before the last canonical block is refused. *)
Theorem C55_range_refuted keccak recover d c max from blocks height_from height_to :
  waiting_chain keccak recover d c max from blocks -> from <= height_to -> height_to < from + N.of_nat (length blocks) - 1 -> prepare keccak max c d height_from height_to = Done (inl kStageBadChainSequence).
Proof. exact (short_range keccak recover d c max from blocks height_from height_to). Qed.
Print Assumptions C55_range_refuted.
(** A block with more transactions than a batch may have is written beyond the end of the worker's buffer. *)
Theorem C55_large_block_refuted keccak recover max n txs :
  (forall x, length (keccak x) = 32%nat) -> (forall h s p k, recover h s p = Some k -> exists x, k = 4 :: x) ->
  Forall (fun t => exists a, recover_sender keccak recover t = Some a) txs -> max < N.of_nat (length txs) -> work keccak recover (max * 20) (map (package_of keccak n) txs) = Overflow.
Proof. exact (fun Hk Hr => too_large keccak recover Hk Hr max n txs). Qed.
Print Assumptions C55_large_block_refuted.
(** Unwinding to the genesis block removes all senders ... *)
Theorem C55_unwind_partial d : wf_db d -> exists d', unwind_senders d 0 = Done d' /\ d' kSenders = [] /\ (forall t, t <> kSyncStageProgress -> t <> kSenders -> d' t = d t) /\ get_stage_progress d' kSendersKey = Done 0.
Proof. exact (fun W => unwind_clears d 0 W (N.le_succ_diag_r 0)). Qed.
Print Assumptions C55_unwind_partial.
(** ... unwinding to block 1 removes those of block 1 too; and to a later block removes none, though the progress is set back. *)
Theorem C55_unwind_refuted d : wf_db d ->
  (exists d', unwind_senders d 1 = Done d' /\ d' kSenders = [] /\ (forall t, t <> kSyncStageProgress -> t <> kSenders -> d' t = d t) /\ get_stage_progress d' kSendersKey = Done 1)
  /\ forall n, 2 <= n -> n < 2 ^ 64 -> (forall k v, In (k, v) (d kSenders) -> k <> block_key_hash ((n + 1) mod 2 ^ 64) (repeat 0 32)) ->
     exists d', unwind_senders d n = Done d' /\ d' kSenders = d kSenders /\ (forall t, t <> kSyncStageProgress -> d' t = d t) /\ get_stage_progress d' kSendersKey = Done n.
Proof. exact (fun W => conj (unwind_clears d 1 W (N.le_refl 1)) (fun n => unwind_keeps d n W)). Qed.
Print Assumptions C55_unwind_refuted.

(** Concrete chains: two blocks with one and two transactions (in one batch of 10, or in two of 2), and one that begins with an empty block. *)
Example waiting_case : waiting_chain toy_keccak toy_recover db_a toy_cfg 10 1 chain_a /\ (forall b, In b chain_a -> b_txs b <> []) /\ count chain_a = 3.
Proof. exact waits_a_case. Qed.
Example batches_case : waiting_chain toy_keccak toy_recover db_a toy_cfg 2 1 chain_a /\ N.of_nat 1 * 2 < count chain_a.
Proof. exact waits_a_batches. Qed.
Example empty_case : waiting_chain toy_keccak toy_recover db_b toy_cfg 10 1 chain_b /\ List.NoDup (map b_hash chain_b) /\ exists a b, nth_error chain_b 0 = Some a /\ b_txs a = [] /\ nth_error chain_b 1 = Some b /\ b_senders b <> [].
Proof. exact waits_b_case. Qed.
Example failure_case : exists hs b, prepare toy_keccak 10 toy_cfg db_a 0 1000 = Done (inr (hs, ([b], E_finish))) /\ work toy_keccak failing_recover (10 * 20) b = Failed.
Proof. exact fails_a. Qed.
Example toy_case : (forall x, length (toy_keccak x) = 32%nat) /\ (forall h s p k, toy_recover h s p = Some k -> exists x, k = 4 :: x) /\ least_first least_of.
Proof. exact (conj toy_hash (conj toy_key least_of_first)). Qed.
