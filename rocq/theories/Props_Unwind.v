(** C51: unwinding the execution stage. *)
From stdpp Require Import gmap.
From Verif Require Import Base RlpModel TypesModel TypesSpec UtilModel DbTable DbModel DbSpec DbCases BufferModel BufferSpec BufferCases UnwindModel UnwindSpec UnwindProofs2 UnwindCases.

(** Unwinding to block n gives back the accounts of block n that existed then (or never did), the slots of contracts of which one
    slot is in play, and those of contracts that did not change. Missing: accounts created after block n, contracts with several
    slots, contracts without code, and histories where block n itself changed nothing. *)
Theorem C51_partial : forall bm_read d acct slot n top, wf_db d -> 0 < n -> n < top -> top < 2 ^ 64 -> account_history d acct n top -> slot_records d slot n top -> records_of d n ->
  get_stage_progress d kExecutionKey = Done top ->
  exists d', unwind_execution d n = Done d' /\ wf_db d' /\ get_stage_progress d' kExecutionKey = Done n
    /\ (forall a, a < 2 ^ 160 -> (acct n a = None -> forall m, n <= m -> m <= top -> acct m a = None) -> read_account bm_read d' a None = Done (acct n a))
    /\ (forall a i l, a < 2 ^ 160 -> i < 2 ^ 64 -> l < 2 ^ 256 -> ((exists l0, l0 < 2 ^ 256 /\ single_slot d n a i l0) \/ (forall m v, n < m -> ~ In (be_fixed 8 m ++ be_fixed 20 a ++ be_fixed 8 i, v) (d kPlainStorageChangeSet))) ->
         read_storage bm_read d' a i l None = Done (slot n a i l)).
Proof. exact unwind_main. Qed.
Print Assumptions C51_partial.
Example C51_witness : wf_db unwind_db /\ account_history unwind_db acct_case 1 2 /\ slot_records unwind_db slot_case 1 2 /\ records_of unwind_db 1 /\ get_stage_progress unwind_db kExecutionKey = Done 2 /\ single_slot unwind_db 1 3 1 1.
Proof. exact unwind_db_case. Qed.

(** An account created by an unwound block stays. *)
Theorem C51_created_refuted : forall bm_read, honest bm_read empty_db None buf_empty (first_block ++ second_block)
  /\ exists d', unwind_execution (history_db (first_block ++ second_block) 2) 1 = Done d' /\ read_account bm_read d' 8 None = Done (Some e_account) /\ read_account bm_read (history_db first_block 1) 8 None = Done None.
Proof. exact created_stays. Qed.
Print Assumptions C51_created_refuted.
(** When block n changed nothing, the walk does not stop there. *)
Theorem C51_quiet_block_refuted : forall bm_read, honest bm_read empty_db None buf_empty (until_three ++ fourth_block)
  /\ exists d', unwind_execution (history_db (until_three ++ fourth_block) 4) 3 = Done d' /\ read_account bm_read d' 9 None = Done (Some old_account) /\ read_account bm_read (history_db until_three 3) 9 None = Done (Some new_account).
Proof. exact too_far. Qed.
Print Assumptions C51_quiet_block_refuted.
(** A contract without code makes the unwinding throw. *)
Theorem C51_bare_contract_refuted : forall bm_read, honest bm_read empty_db None buf_empty bare_blocks /\ unwind_execution (history_db bare_blocks 2) 1 = Throws.
Proof. exact bare_throws. Qed.
Print Assumptions C51_bare_contract_refuted.
(** Of two slots the wrong one is removed. *)
Theorem C51_slots_refuted : forall bm_read, wf_db slots_db /\ read_storage bm_read slots_db 3 1 1 None = Done 10 /\ read_storage_changes slots_db 2 = Done {[(3, 1, 2) := []]}
  /\ exists d', unwind_execution slots_db 1 = Done d' /\ read_storage bm_read d' 3 1 1 None = Done 0 /\ read_storage bm_read d' 3 1 2 None = Done 20.
Proof. exact other_slot. Qed.
Print Assumptions C51_slots_refuted.
(** The storage change sets of the unwound blocks stay. *)
Theorem C51_change_sets_refuted : forall d n d', wf_db d -> (forall k v, In (k, v) (d kPlainStorageChangeSet) -> length k = 36%nat) -> n <> 0 -> unwind_execution d n = Done d' -> d' kPlainStorageChangeSet = d kPlainStorageChangeSet.
Proof. exact storage_changes_kept. Qed.
Print Assumptions C51_change_sets_refuted.
