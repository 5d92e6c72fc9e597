(** C52: execution of blocks in batches, and the progress that is recorded. *)
From stdpp Require Import gmap.
From Verif Require Import Base RlpModel TypesModel TypesSpec BlockModel UtilModel ChainModel DbTable DbModel DbSpec BufferModel BufferSpec BufferCases UnwindModel ExecModel ExecSpec ExecLemmas.

(** One call of silkworm_execute_blocks: blocks start, ..., m-1 were executed, each once and in order, and the last of them is reported. Unless
    it returns Success the transaction is unchanged; if it does, some block was executed (or there was none to execute) and the database holds the state
    after those blocks (for contracts with one slot: see C46). BlockNotFound and InvalidBlock are about block m. *)
Theorem C52_call : forall bm_read exec size cl cr fuel d chain start max batch wr last st d' last',
  sound_exec exec -> execute_blocks bm_read exec size cl cr fuel d chain start max batch wr last = Done (st, d', last') -> st <> UnknownChainId ->
  exists c m w, lookup_chain_config chain = Some c /\ start <= m /\ executes exec c d start (state_of bm_read d) m w /\ last' = (if start =? m then last else Some (m - 1))
    /\ (st <> Success -> d' = d) /\ (st = Success -> (max < start /\ m = start) \/ (start < m /\ m <= max + 1))
    /\ (st = BlockNotFound -> m <= max /\ read_block d m true = Done None)
    /\ (st = InvalidBlock -> m <= max /\ exists blk h, read_block d m true = Done (Some (blk, h)) /\ exec c w blk = Invalid)
    /\ (st = Success -> forall slot_of, tame_exec exec slot_of -> tame_db slot_of d -> view_eq (state_of bm_read d') w /\ tame_db slot_of d').
Proof. exact one_call. Qed.
Print Assumptions C52_call.
(** The command that executes the chain, when no block up to the last one asked for is missing: whatever the batch size, every database that it
    commits holds exactly the state after the blocks up to the progress recorded in it. So wherever it is stopped, running it again goes on from there. *)
Theorem C52_commits_partial : forall bm_read exec size cl cr fuel d chain to batch c p ds slot_of, sound_exec exec -> tame_exec exec slot_of -> tame_db slot_of d ->
  lookup_chain_config chain = Some c -> get_stage_progress d kExecutionKey = Done p -> to < 2 ^ 64 ->
  (forall n, p < n -> n <= to -> read_block d n true <> Done None) -> command bm_read exec size cl cr fuel d chain to batch = Done ds ->
  forall dk, In dk ds -> exists pk wk, p < pk /\ pk <= to /\ get_stage_progress dk kExecutionKey = Done pk /\ executes exec c d (p + 1) (state_of bm_read d) (pk + 1) wk /\ view_eq (state_of bm_read dk) wk.
Proof. exact command_commits. Qed.
Print Assumptions C52_commits_partial.
(** And if all blocks are valid, it gets to the end. *)
Theorem C52_completes : forall bm_read exec size cl cr fuel d chain to batch c p wf slot_of, sound_exec exec -> tame_exec exec slot_of -> tame_db slot_of d ->
  lookup_chain_config chain = Some c -> get_stage_progress d kExecutionKey = Done p -> p < to -> to < 2 ^ 64 ->
  executes exec c d (p + 1) (state_of bm_read d) (to + 1) wf -> (N.to_nat (to + 2 - p) < fuel)%nat ->
  exists ds dl, command bm_read exec size cl cr fuel d chain to batch = Done ds /\ list.last ds = Some dl /\ get_stage_progress dl kExecutionKey = Done to.
Proof. exact command_completes. Qed.
Print Assumptions C52_completes.
(** But when the chain in the database ends before the last block asked for (which is 2^64 - 1 unless told otherwise), the blocks since the last full
    batch are recorded as executed and nothing of them is written. *)
Theorem C52_chain_end_refuted : forall bm_read exec size cl cr fuel d chain to batch c p m wf, sound_exec exec -> wf_db d -> (forall b, size b < batch) ->
  lookup_chain_config chain = Some c -> get_stage_progress d kExecutionKey = Done p ->
  executes exec c d (p + 1) (state_of bm_read d) m wf -> p + 1 < m -> m <= to -> to < 2 ^ 64 -> read_block d m true = Done None -> (N.to_nat (m + 1 - p) < fuel)%nat ->
  exists d', command bm_read exec size cl cr fuel d chain to batch = Done [d'] /\ get_stage_progress d' kExecutionKey = Done (m - 1) /\ (forall t, t <> kSyncStageProgress -> d' t = d t).
Proof. exact command_tail. Qed.
Print Assumptions C52_chain_end_refuted.
(** The execution stage opens a read-only transaction: it never changes the database, and it does not succeed if a block changes an account. *)
Theorem C52_stage_refuted : forall bm_read exec size cl cr fuel c d batch,
  (forall r d', stage_execution bm_read exec size cl cr fuel c d batch = Done (r, d') -> forall t, d' t = d t)
  /\ (forall max p blk h ops rs a x y d', get_stage_progress d kBodiesKey = Done max -> get_stage_progress d kExecutionKey = Done p -> p <= max -> read_block d p true = Done (Some (blk, h)) ->
       exec c (view_of bm_read d buf_empty) blk = Valid ops rs -> In (OAccount a x y) ops -> x <> y -> stage_execution bm_read exec size cl cr fuel c d batch <> Done (true, d')).
Proof. exact (fun bm_read exec size cl cr fuel c d batch => conj (stage_unchanged bm_read exec size cl cr fuel c d batch) (stage_fails bm_read exec size cl cr fuel c d batch)). Qed.
Print Assumptions C52_stage_refuted.
(** Its loop, even in a writable transaction, goes on after a full batch with the block that it has just executed and written. *)
Theorem C52_repeat_refuted : forall bm_read exec size cl cr fuel c d b n max batch wr d' n' w, sound_exec exec -> view_eq w (view_of bm_read d b) ->
  stage_loop bm_read exec size cl cr fuel false c d b n max batch wr = Done (true, d', n') -> n' <= max ->
  exists w' b', executes exec c d n w (n' + 1) w' /\ view_eq w' (view_of bm_read d b') /\ d' = buf_write_to_db b' d.
Proof. exact stage_repeats. Qed.
Print Assumptions C52_repeat_refuted.

(** A chain of two blocks; the first creates account 7, the second changes it. With batches of one block both are committed; without an end, the progress
    is 2 and the account is not there. *)
Example C52_witness : sound_exec toy_exec /\ tame_exec toy_exec (fun _ _ => 0) /\ tame_db (fun _ _ => 0) two_blocks
  /\ (get_stage_progress two_blocks kExecutionKey = Done 0 /\ wf_db two_blocks /\ lookup_chain_config 1 = Some kMainnetConfig) /\ read_block two_blocks 3 true = Done None
  /\ forall bm_read c, exists w, executes toy_exec c two_blocks 1 (state_of bm_read two_blocks) 3 w /\ v_account w 7 = Done (Some new_account) /\ v_account (state_of bm_read two_blocks) 7 = Done None.
Proof. exact (conj toy_sound (conj toy_tame (conj two_blocks_tame (conj toy_progress (conj read_three toy_executes))))). Qed.
Example C52_runs : forall bm_read cl cr,
  (exists d1 d2, command bm_read toy_exec (fun _ => 1) cl cr 10 two_blocks 1 2 0 = Done [d1; d2]
     /\ get_stage_progress d1 kExecutionKey = Done 1 /\ read_account bm_read d1 7 None = Done (Some e_account)
     /\ get_stage_progress d2 kExecutionKey = Done 2 /\ read_account bm_read d2 7 None = Done (Some new_account))
  /\ (exists d1, command bm_read toy_exec (fun _ => 1) cl cr 10 two_blocks 1 (2 ^ 64 - 1) 1000 = Done [d1] /\ get_stage_progress d1 kExecutionKey = Done 2 /\ read_account bm_read d1 7 None = Done None).
Proof. exact toy_commands. Qed.
