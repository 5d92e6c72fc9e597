(** C98: the command check_senders. *)
From Coq Require Import Strings.String.
From Verif Require Import Base TxModel BlockModel ChainModel DbTable DbModel DbSpec EtlModel EtlSpec EtlLemmas FarmModel FarmSpec FarmWitness SendersToolModel SendersToolFinal SendersToolCases.
Open Scope list_scope.
Open Scope N_scope.

(** Nothing is committed when the status is not 0, or with --dry. *)
Theorem C98_commits_on_success keccak recover c max pick max_workers d height_from height_to force dry ok r :
  recovers keccak recover pick max max_workers c d height_from height_to force dry ok r -> ok = false \/ dry = true -> r = None.
Proof. exact (committed_only keccak recover c max pick max_workers d height_from height_to force dry ok r). Qed.
Print Assumptions C98_commits_on_success.

(** Whatever the interleaving, and for any number of batches, when the command ends its status is 0 and it has committed the senders of a prefix of the
    waiting blocks, each under its own number and hash, provided every block has transactions. Missing: that the prefix is the whole chain, and that it
    ends (see below). *)
Theorem C98_prefix_partial keccak recover c max pick max_workers d from blocks height_from height_to force dry ok r :
  (forall x, length (keccak x) = 32%nat) -> (forall h s p k, recover h s p = Some k -> exists x, k = 4 :: x) -> least_first pick ->
  waiting_chain keccak recover d c max from blocks -> from + N.of_nat (length blocks) - 1 <= height_to -> force = false \/ from <= height_from -> (forall b, In b blocks -> b_txs b <> []) ->
  recovers keccak recover pick max max_workers c d height_from height_to force dry ok r ->
  ok = true /\ exists d' m, r = (if dry then None else Some d') /\ (m <= length blocks)%nat /\ senders_stored d from blocks m d'.
Proof. exact (fun Hk Hr Pk W Ht Ff F R => plain_prefix keccak recover Hk Hr c max pick max_workers Pk d from blocks height_from height_to force W Ht Ff dry ok r F R). Qed.
Print Assumptions C98_prefix_partial.

(** Everything is stored if all batches are complete when the farm collects for the last time. *)
Theorem C98_complete_partial keccak recover c max pick max_workers d from blocks height_from height_to force hs bs f1 f :
  (forall x, length (keccak x) = 32%nat) -> (forall h s p k, recover h s p = Some k -> exists x, k = 4 :: x) -> least_first pick ->
  waiting_chain keccak recover d c max from blocks -> from + N.of_nat (length blocks) - 1 <= height_to -> force = false \/ from <= height_from -> (forall b, In b blocks -> b_txs b <> []) ->
  tool_prepare keccak max c d height_from height_to force = Done (d, Some (hs, (bs, E_finish))) ->
  tool_run keccak recover max max_workers E_finish (initial hs bs) f1 -> f_main f1 = M_last -> f_completed f1 = length bs ->
  tool_run keccak recover max max_workers E_finish f1 f -> f_main f = M_end -> exists d', conclude pick d f = Done (kStageSuccess, d') /\ senders_stored d from blocks (length blocks) d'.
Proof. exact (fun Hk Hr Pk W Ht Ff F Q R1 M1 C1 R2 M2 => plain_complete keccak recover Hk Hr c max pick max_workers Pk d from blocks height_from height_to force W Ht Ff hs bs f1 f F Q R1 M1 C1 R2 M2). Qed.
Print Assumptions C98_complete_partial.

(** For any number of batches there is an interleaving with which everything is stored ... *)
Theorem C98_many_partial keccak recover c max pick max_workers d from blocks height_from height_to force :
  (forall x, length (keccak x) = 32%nat) -> (forall h s p k, recover h s p = Some k -> exists x, k = 4 :: x) -> least_first pick ->
  waiting_chain keccak recover d c max from blocks -> from + N.of_nat (length blocks) - 1 <= height_to -> force = false \/ from <= height_from -> (forall b, In b blocks -> b_txs b <> []) ->
  exists d', recovers keccak recover pick max max_workers c d height_from height_to force false true (Some d') /\ senders_stored d from blocks (length blocks) d'.
Proof. exact (fun Hk Hr Pk W Ht Ff F => plain_can_store keccak recover Hk Hr c max pick max_workers Pk d from blocks height_from height_to force W Ht Ff F). Qed.
Print Assumptions C98_many_partial.
(** ... but with more than one batch also one with which a worker lets go of the batch it has just been given, and then uses a null pointer ... *)
Theorem C98_race_refuted keccak recover c max max_workers d from blocks height_from height_to force :
  (forall x, length (keccak x) = 32%nat) -> (forall h s p k, recover h s p = Some k -> exists x, k = 4 :: x) ->
  waiting_chain keccak recover d c max from blocks -> from + N.of_nat (length blocks) - 1 <= height_to -> force = false \/ from <= height_from -> max < count blocks ->
  runs_wild keccak recover max max_workers c d height_from height_to force.
Proof. exact (fun Hk Hr W Ht Ff L => plain_wild keccak recover Hk Hr c max max_workers d from blocks height_from height_to force W Ht Ff L). Qed.
Print Assumptions C98_race_refuted.
(** ... and with one batch, one with which the status is 0 and nothing is stored, and one with which the command never ends. *)
Theorem C98_lost_refuted keccak recover c max pick max_workers d from blocks height_from height_to force :
  (forall x, length (keccak x) = 32%nat) -> (forall h s p k, recover h s p = Some k -> exists x, k = 4 :: x) ->
  waiting_chain keccak recover d c max from blocks -> from + N.of_nat (length blocks) - 1 <= height_to -> force = false \/ from <= height_from -> 0 < count blocks -> count blocks <= max ->
  recovers keccak recover pick max max_workers c d height_from height_to force false true (Some d) /\ waits_forever keccak recover max max_workers c d height_from height_to force.
Proof. exact (fun Hk Hr W Ht Ff L0 L => conj (plain_lost keccak recover Hk Hr c max pick max_workers d from blocks height_from height_to force W Ht Ff L0 L) (plain_hangs keccak recover Hk Hr c max max_workers d from blocks height_from height_to force W Ht Ff L0 L)). Qed.
Print Assumptions C98_lost_refuted.
(** After a block without transactions, no later block has senders. *)
Theorem C98_empty_block_refuted keccak recover c max pick max_workers d from blocks height_from height_to force i j a b ok d' :
  (forall x, length (keccak x) = 32%nat) -> (forall h s p k, recover h s p = Some k -> exists x, k = 4 :: x) -> least_first pick ->
  waiting_chain keccak recover d c max from blocks -> from + N.of_nat (length blocks) - 1 <= height_to -> force = false \/ from <= height_from -> List.NoDup (map b_hash blocks) ->
  nth_error blocks i = Some a -> b_txs a = [] -> nth_error blocks j = Some b -> (i < j)%nat ->
  recovers keccak recover pick max max_workers c d height_from height_to force false ok (Some d') -> ok = true /\ read_senders d' (b_number b) (b_hash b) = Done [].
Proof. exact (fun Hk Hr Pk W Ht Ff Nd Ea Ta Eb L R => plain_shifts keccak recover Hk Hr c max pick max_workers Pk d from blocks height_from height_to force W Ht Ff i j a b ok d' Nd Ea Ta Eb L R). Qed.
Print Assumptions C98_empty_block_refuted.
(** A batch from which no key can be recovered: the status can be 0, and what is committed is what the unwinding of --force has left. *)
Theorem C98_failure_refuted keccak recover pick max max_workers c d d1 height_from height_to force hs b :
  tool_prepare keccak max c d height_from height_to force = Done (d1, Some (hs, ([b], E_finish))) -> work keccak recover (max * 20) b = Failed ->
  recovers keccak recover pick max max_workers c d height_from height_to force false true (Some d1) /\ forall ok r, recovers keccak recover pick max max_workers c d height_from height_to force false ok r -> r = None \/ r = Some d1.
Proof. exact (tool_failure keccak recover pick max max_workers c d d1 height_from height_to force hs b). Qed.
Print Assumptions C98_failure_refuted.
(** With --force from a block that has been processed: the table is unwound to the block before, and from there on as above. *)
Theorem C98_force_partial keccak recover c max pick max_workers d d1 n from blocks height_to :
  (forall x, length (keccak x) = 32%nat) -> (forall h s p k, recover h s p = Some k -> exists x, k = 4 :: x) -> least_first pick ->
  get_stage_progress d kSendersKey = Done n -> n + 1 < 2 ^ 64 -> from <= n -> unwinds d (from - 1) false = Done (true, Some d1) -> waiting_chain keccak recover d1 c max from blocks ->
  from + N.of_nat (length blocks) - 1 <= height_to -> (forall b, In b blocks -> b_txs b <> []) ->
  (forall dry ok r, recovers keccak recover pick max max_workers c d from height_to true dry ok r -> ok = true /\ exists d' m, r = (if dry then None else Some d') /\ (m <= length blocks)%nat /\ senders_stored d1 from blocks m d')
  /\ exists d', recovers keccak recover pick max max_workers c d from height_to true false true (Some d') /\ senders_stored d1 from blocks (length blocks) d'.
Proof. exact (fun Hk Hr Pk Pn Ln L U W Ht F => forced_prefix keccak recover Hk Hr c max pick max_workers Pk d d1 n from blocks height_to Pn Ln L U W Ht F). Qed.
Print Assumptions C98_force_partial.
(** But from block 2 it removes the senders of block 1, whatever the interleaving. *)
Theorem C98_force_refuted pick max_workers : least_first pick ->
  (forall b, In b chain_a -> read_senders db_c (b_number b) (b_hash b) = Done (b_senders b) /\ b_senders b <> [])
  /\ (exists d', recovers toy_keccak toy_recover pick 10 max_workers toy_cfg db_c 2 1000 true false true (Some d'))
  /\ forall ok d', recovers toy_keccak toy_recover pick 10 max_workers toy_cfg db_c 2 1000 true false ok (Some d') -> read_senders d' 1 (repeat 9 32) = Done [].
Proof. exact (first_block_lost pick max_workers). Qed.
Print Assumptions C98_force_refuted.

(** `unwind --from n`, n at least 2: exactly the senders of the blocks up to n remain, the progress is n, and nothing else is touched. *)
Theorem C98_unwind_partial d n dry : wf_db d -> 2 <= n -> n + 1 < 2 ^ 64 -> (forall k v, In (k, v) (d kSenders) -> exists m h, k = block_key_hash m h /\ m < 2 ^ 64 /\ length h = 32%nat) ->
  exists d', unwinds d n dry = Done (true, if dry then None else Some d') /\ (forall m h v, m < 2 ^ 64 -> In (block_key_hash m h, v) (d' kSenders) <-> In (block_key_hash m h, v) (d kSenders) /\ m <= n)
    /\ wf_db d' /\ (forall e, In e (d' kSenders) -> In e (d kSenders)) /\ (forall t, t <> kSenders -> t <> kSyncStageProgress -> d' t = d t) /\ (forall name, get_stage_progress d' name = if bytes_eqb kSendersKey name then Done n else get_stage_progress d name).
Proof. exact (unwinds_keeps d n dry). Qed.
Print Assumptions C98_unwind_partial.
(** To block 1, the senders of block 1 are removed as well, though the progress says they are there. *)
Theorem C98_unwind_refuted d n dry : wf_db d -> n <= 1 ->
  exists d', unwinds d n dry = Done (true, if dry then None else Some d') /\ d' kSenders = [] /\ (forall t, t <> kSenders -> t <> kSyncStageProgress -> d' t = d t) /\ get_stage_progress d' kSendersKey = Done n.
Proof. exact (unwinds_clears d n dry). Qed.
Print Assumptions C98_unwind_refuted.

(** The hypotheses are met: by the chains of C55, and by databases with senders. *)
Example C98_case : waiting_chain toy_keccak toy_recover db_a toy_cfg 10 1 chain_a /\ (forall b, In b chain_a -> b_txs b <> []) /\ count chain_a = 3.
Proof. exact waits_a_case. Qed.
Example C98_case_batches : waiting_chain toy_keccak toy_recover db_a toy_cfg 2 1 chain_a /\ N.of_nat 1 * 2 < count chain_a.
Proof. exact waits_a_batches. Qed.
Example C98_case_empty : waiting_chain toy_keccak toy_recover db_b toy_cfg 10 1 chain_b /\ List.NoDup (map b_hash chain_b) /\ exists a b, nth_error chain_b 0 = Some a /\ b_txs a = [] /\ nth_error chain_b 1 = Some b /\ b_senders b <> [].
Proof. exact waits_b_case. Qed.
Example C98_case_failure : exists hs b, tool_prepare toy_keccak 10 toy_cfg db_a 0 1000 false = Done (db_a, Some (hs, ([b], E_finish))) /\ work toy_keccak failing_recover (10 * 20) b = Failed.
Proof. exact plain_failure. Qed.
Example C98_case_forced_failure pick max_workers : exists d1, recovers toy_keccak failing_recover pick 10 max_workers toy_cfg db_c 1 1000 true false true (Some d1) /\ d1 kSenders = [] /\ db_c kSenders <> [].
Proof. exact (forced_failure_commits pick max_workers). Qed.
Example C98_case_force : get_stage_progress db_c kSendersKey = Done 2 /\ unwinds db_c 1 false = Done (true, Some (unwound 1)) /\ waiting_chain toy_keccak toy_recover (unwound 1) toy_cfg 10 2 chain_2 /\ (forall b, In b chain_2 -> b_txs b <> []).
Proof. exact forced_case. Qed.
Example C98_case_unwind : wf_db db_3 /\ (forall k v, In (k, v) (db_3 kSenders) -> exists m h, k = block_key_hash m h /\ m < 2 ^ 64 /\ length h = 32%nat) /\ length (db_3 kSenders) = 3%nat /\ exists d', unwinds db_3 2 false = Done (true, Some d') /\ length (d' kSenders) = 2%nat.
Proof. exact db_3_case. Qed.
Example C98_case_cleared : wf_db db_c /\ (forall b, In b chain_a -> read_senders db_c (b_number b) (b_hash b) = Done (b_senders b)) /\ exists b, In b chain_a /\ b_number b = 1 /\ b_senders b <> [].
Proof. exact cleared_case. Qed.
