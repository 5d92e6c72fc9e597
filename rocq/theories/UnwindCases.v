(** Concrete cases for the unwinding of the execution stage. *)
From stdpp Require Import gmap.
From Coq Require Import Sorting.Sorted.
From Verif Require Import Base BaseFacts RlpModel TypesModel TypesSpec TypesProofs UtilModel UtilProofs DbTable DbModel DbSpec DbProofs DbCases BufferModel BufferSpec BufferProofs2 BufferProofs3 BufferCases UnwindModel UnwindSpec UnwindProofs UnwindProofs2.

(** *** Storage change sets are never cut *)
Lemma storage_changes_kept d n d' : wf_db d -> (forall k v, In (k, v) (d kPlainStorageChangeSet) -> length k = 36%nat) -> n <> 0 -> unwind_execution d n = Done d' -> d' kPlainStorageChangeSet = d kPlainStorageChangeSet.
Proof.
  intros W L N E. unfold unwind_execution in E. destruct (get_stage_progress d kExecutionKey) as [top| |]; cbn [obind] in E; try discriminate. destruct (N.eqb_spec n 0); [contradiction|]. destruct (top <=? n); [now injection E as <-|].
  destruct (walk_collect _ _ _ _) as [[s1 c1]| |]; cbn [obind] in E; try discriminate. destruct (walk_collect _ _ _ _) as [[s2 c2]| |]; cbn [obind] in E; try discriminate.
  unfold set_stage_progress, set_stage_data in E. rewrite known_execution in E. cbn [negb] in E. assert (E' : d' = put (set_table (set_table (set_table (set_table (set_table (set_table (set_table d kPlainState s2) kPlainContractCode c2) kPlainAccountChangeSet (unwind_table_from (d kPlainAccountChangeSet) (be_fixed 8 (n + 1)))) kPlainStorageChangeSet (unwind_table_from (d kPlainStorageChangeSet) (be_fixed 8 (n + 1)))) kBlockReceipts (unwind_table_from (d kBlockReceipts) (be_fixed 8 (n + 1)))) kLogs (unwind_table_from (d kLogs) (be_fixed 8 (n + 1)))) kCallTraceSet (unwind_table_from (d kCallTraceSet) (be_fixed 8 (n + 1)))) kSyncStageProgress kExecutionKey (be_fixed 8 n)) by (apply (f_equal (fun x => match x with Done y => y | _ => d end)) in E; symmetry; exact E).
  rewrite E'. clear E E'. rewrite put_other by discriminate. change (unwind_table_from (d kPlainStorageChangeSet) (be_fixed 8 (n + 1)) = d kPlainStorageChangeSet). unfold unwind_table_from.
  assert (F : find (d kPlainStorageChangeSet) (be_fixed 8 (n + 1)) = []).
  { destruct (find_first (d kPlainStorageChangeSet) (be_fixed 8 (n + 1)) (wf_multi d kPlainStorageChangeSet W eq_refl)) as [(E & _)|(pre & w & r & E & _ & _)]; [exact E|]. exfalso. assert (I : In (be_fixed 8 (n + 1), w) (d kPlainStorageChangeSet)) by (rewrite E; apply in_or_app; right; now left). apply L in I. rewrite be_fixed_length in I. discriminate. }
  rewrite F. cbn [length]. rewrite Nat.sub_0_r. apply firstn_all.
Qed.

(** *** Histories *)
(** What the buffer writes for a history that starts with an empty database, with the progress of the stage. *)
Definition history_db (ops : list buf_op) (top : N) : database := put (buf_write_to_db (buf_run buf_empty ops) empty_db) kSyncStageProgress kExecutionKey (be_fixed 8 top).
Definition third_account : account := mkAccount 3 30 kEmptyHash 0.
(** Block 1 creates account 9, block 2 account 8. *)
Definition first_block : list buf_op := [OBegin 1; OStorage 3 1 1 0 10; OAccount 3 None (Some c_account); OAccount 9 None (Some old_account)].
Definition second_block : list buf_op := [OBegin 2; OAccount 8 None (Some e_account)].
Lemma created_stays bm_read : honest bm_read empty_db None buf_empty (first_block ++ second_block)
  /\ exists d', unwind_execution (history_db (first_block ++ second_block) 2) 1 = Done d' /\ read_account bm_read d' 8 None = Done (Some e_account) /\ read_account bm_read (history_db first_block 1) 8 None = Done None.
Proof. split; [repeat split; reflexivity|]. eexists. split; [vm_compute; reflexivity|]. split; vm_compute; reflexivity. Qed.
(** Account 9 changes in blocks 2 and 4 but block 3 changes nothing. *)
Definition until_three : list buf_op := [OBegin 1; OStorage 3 1 1 0 10; OAccount 3 None (Some e_account); OAccount 9 None (Some old_account); OBegin 2; OAccount 9 (Some old_account) (Some new_account); OBegin 3].
Definition fourth_block : list buf_op := [OBegin 4; OAccount 9 (Some new_account) (Some third_account)].
Lemma too_far bm_read : honest bm_read empty_db None buf_empty (until_three ++ fourth_block)
  /\ exists d', unwind_execution (history_db (until_three ++ fourth_block) 4) 3 = Done d' /\ read_account bm_read d' 9 None = Done (Some old_account) /\ read_account bm_read (history_db until_three 3) 9 None = Done (Some new_account).
Proof. split; [repeat split; reflexivity|]. eexists. split; [vm_compute; reflexivity|]. split; vm_compute; reflexivity. Qed.
(** A contract without code. *)
Definition bare_contract : account := mkAccount 1 5 kEmptyHash 1.
Definition bare_contract' : account := mkAccount 1 6 kEmptyHash 1.
Definition bare_blocks : list buf_op := [OBegin 1; OAccount 3 None (Some bare_contract); OBegin 2; OAccount 3 (Some bare_contract) (Some bare_contract')].
Lemma bare_throws bm_read : honest bm_read empty_db None buf_empty bare_blocks /\ unwind_execution (history_db bare_blocks 2) 1 = Throws.
Proof. split; [repeat split; reflexivity|vm_compute; reflexivity]. Qed.
(** Slot 2 of a contract is set in block 2; slot 1 was there. *)
Definition slots_db : database :=
  put (put (put (put (put (put empty_db kPlainState (storage_prefix (addr 3) 1) (word 1 ++ [10])) kPlainState (storage_prefix (addr 3) 1) (word 2 ++ [20]))
    kPlainStorageChangeSet (storage_change_key 1 (addr 3) 1) (word 1)) kPlainStorageChangeSet (storage_change_key 2 (addr 3) 1) (word 2))
    kPlainAccountChangeSet (be_fixed 8 1) (addr 9)) kSyncStageProgress kExecutionKey (be_fixed 8 2).
Lemma other_slot bm_read : wf_db slots_db /\ read_storage bm_read slots_db 3 1 1 None = Done 10 /\ read_storage_changes slots_db 2 = Done {[(3, 1, 2) := []]}
  /\ exists d', unwind_execution slots_db 1 = Done d' /\ read_storage bm_read d' 3 1 1 None = Done 0 /\ read_storage bm_read d' 3 1 2 None = Done 20.
Proof. split; [unfold slots_db; repeat apply put_wf; apply empty_wf|]. split; [vm_compute; reflexivity|]. split; [vm_compute; reflexivity|]. eexists. split; [vm_compute; reflexivity|]. split; vm_compute; reflexivity. Qed.

(** *** A history that meets the conditions *)
Definition acct_case (m a : N) : option account := if a =? 9 then if m <=? 1 then Some old_account else Some new_account else if a =? 3 then Some c_account else None.
Definition slot_case (m a i l : N) : N := if (a =? 3) && (i =? 1) && (l =? 1) then if m <=? 1 then 10 else 20 else 0.
Definition unwind_db : database :=
  put (put (put (put (put (put (put (put (put empty_db kPlainState (addr 9) (encode_for_storage new_account false)) kPlainState (addr 3) (encode_for_storage c_account false))
    kPlainState (storage_prefix (addr 3) 1) (word 1 ++ [20])) kPlainContractCode (storage_prefix (addr 3) 1) c_hash)
    kPlainAccountChangeSet (be_fixed 8 1) (addr 9 ++ [])) kPlainAccountChangeSet (be_fixed 8 2) (addr 9 ++ encode_for_storage old_account true))
    kPlainStorageChangeSet (storage_change_key 1 (addr 3) 1) (word 1 ++ [])) kPlainStorageChangeSet (storage_change_key 2 (addr 3) 1) (word 1 ++ [10]))
    kSyncStageProgress kExecutionKey (be_fixed 8 2).
Lemma unwind_db_wf : wf_db unwind_db.
Proof. unfold unwind_db. repeat apply put_wf. apply empty_wf. Qed.
Lemma entry_eq (a b c d : bytes) : @eq entry (a, b) (c, d) <-> a = c /\ b = d.
Proof. split; [intros E; apply pair_equal_spec in E; exact E|intros (-> & ->); reflexivity]. Qed.
Lemma nil_dup : dup_ordered []. Proof. constructor. Qed.
Lemma unwind_db_state k v : In (k, v) (unwind_db kPlainState) <-> (k = addr 9 /\ v = encode_for_storage new_account false) \/ (k = addr 3 /\ v = encode_for_storage c_account false) \/ (k = storage_prefix (addr 3) 1 /\ v = word 1 ++ [20]).
Proof.
  change (unwind_db kPlainState) with (put_dup (put_dup (put_dup [] (addr 9) (encode_for_storage new_account false)) (addr 3) (encode_for_storage c_account false)) (storage_prefix (addr 3) 1) (word 1 ++ [20])).
  rewrite !put_dup_in by (repeat apply put_dup_ordered; exact nil_dup). rewrite !entry_eq. cbn [In]. tauto.
Qed.
Lemma unwind_db_changes k v : In (k, v) (unwind_db kPlainAccountChangeSet) <-> (k = be_fixed 8 1 /\ v = addr 9 ++ []) \/ (k = be_fixed 8 2 /\ v = addr 9 ++ encode_for_storage old_account true).
Proof.
  change (unwind_db kPlainAccountChangeSet) with (put_dup (put_dup [] (be_fixed 8 1) (addr 9 ++ [])) (be_fixed 8 2) (addr 9 ++ encode_for_storage old_account true)).
  rewrite !put_dup_in by (repeat apply put_dup_ordered; exact nil_dup). rewrite !entry_eq. cbn [In]. tauto.
Qed.
Lemma unwind_db_slots k v : In (k, v) (unwind_db kPlainStorageChangeSet) <-> (k = storage_change_key 1 (addr 3) 1 /\ v = word 1 ++ []) \/ (k = storage_change_key 2 (addr 3) 1 /\ v = word 1 ++ [10]).
Proof.
  change (unwind_db kPlainStorageChangeSet) with (put_dup (put_dup [] (storage_change_key 1 (addr 3) 1) (word 1 ++ [])) (storage_change_key 2 (addr 3) 1) (word 1 ++ [10])).
  rewrite !put_dup_in by (repeat apply put_dup_ordered; exact nil_dup). rewrite !entry_eq. cbn [In]. tauto.
Qed.
Lemma account_wfs : wf_account old_account /\ wf_account new_account /\ wf_account c_account.
Proof. unfold wf_account, u64, u256, hash32, wf_bytes. repeat split; try reflexivity; repeat constructor. Qed.
Lemma acct_case_cases m a x : acct_case m a = Some x -> (a = 9 /\ m <= 1 /\ x = old_account) \/ (a = 9 /\ 1 < m /\ x = new_account) \/ (a = 3 /\ x = c_account).
Proof.
  unfold acct_case. destruct (N.eqb_spec a 9) as [ -> |]; [destruct (N.leb_spec m 1); intros E; apply (inj Some) in E; subst; auto|]. destruct (N.eqb_spec a 3) as [ -> |]; [intros E; apply (inj Some) in E; subst; auto|discriminate].
Qed.
Lemma unwind_db_accounts : account_history unwind_db acct_case 1 2.
Proof.
  split.
  - intros k v I. apply unwind_db_changes in I as [(-> & ->)|(-> & ->)].
    + exists 1, 9, []. split; [reflexivity|]. split; [reflexivity|]. split; [lia|]. split; [reflexivity|]. intros X. lia.
    + exists 2, 9, (encode_for_storage old_account true). split; [reflexivity|]. split; [reflexivity|]. split; [lia|]. split; [reflexivity|]. intros _. reflexivity.
  - intros m a M1 M2 Ha C. assert (m = 2) by lia. subst m. unfold acct_case in C. destruct (N.eqb_spec a 9) as [ -> |]; [|now contradiction C]. exists (encode_for_storage old_account true). apply unwind_db_changes. right. split; reflexivity.
  - intros a v Ha. rewrite unwind_db_state. split.
    + intros [(E & ->)|[(E & ->)|(E & _)]].
      * apply addr_inj in E; [subst a; exists new_account; split; reflexivity|exact Ha|reflexivity].
      * apply addr_inj in E; [subst a; exists c_account; split; reflexivity|exact Ha|reflexivity].
      * symmetry in E. apply prefix_addr in E. contradiction.
    + intros (x & E & ->). apply acct_case_cases in E as [(-> & X & _)|[(-> & _ & ->)|(-> & ->)]]; [lia|left|right; left]; split; reflexivity.
  - intros m a x M1 M2 E P. apply acct_case_cases in E as [(_ & _ & ->)|[(_ & _ & ->)|(-> & ->)]]; [cbn in P; lia|cbn in P; lia|]. vm_compute. reflexivity.
  - intros m a x M1 M2 E P. apply acct_case_cases in E as [(_ & _ & ->)|[(_ & _ & ->)|(-> & ->)]]; [reflexivity|reflexivity|discriminate P].
  - intros m m' a x y M1 M2 M3 E E'. apply acct_case_cases in E as [(-> & _ & ->)|[(-> & _ & ->)|(-> & ->)]]; apply acct_case_cases in E' as [(X & _ & ->)|[(X & _ & ->)|(X & ->)]]; cbn; lia.
  - intros m a x E. destruct account_wfs as (A & B & C). apply acct_case_cases in E as [(_ & _ & ->)|[(_ & _ & ->)|(_ & ->)]]; assumption.
Qed.
Lemma slot_case_wf m a i l : slot_case m a i l < 2 ^ 256.
Proof. unfold slot_case. destruct (_ && _ && _); [destruct (m <=? 1)|]; reflexivity. Qed.
Lemma unwind_db_slot_records : slot_records unwind_db slot_case 1 2.
Proof.
  split.
  - intros k v I. apply unwind_db_slots in I as [(-> & ->)|(-> & ->)].
    + exists 1, 3, 1, 1, []. split; [reflexivity|]. split; [reflexivity|]. split; [lia|]. split; [reflexivity|]. split; [reflexivity|]. split; [reflexivity|]. intros X. lia.
    + exists 2, 3, 1, 1, [10]. split; [reflexivity|]. split; [reflexivity|]. split; [lia|]. split; [reflexivity|]. split; [reflexivity|]. split; [reflexivity|]. intros _. vm_compute. reflexivity.
  - intros m a i l M1 M2 Ha Hi Hl C. assert (m = 2) by lia. subst m. unfold slot_case in C. destruct ((a =? 3) && (i =? 1) && (l =? 1)) eqn:X; [|now contradiction C]. rewrite !andb_true_iff, !N.eqb_eq in X. destruct X as ((-> & ->) & ->). exists [10]. apply unwind_db_slots. right. split; reflexivity.
  - intros a i l s Ha Hi Hl. rewrite unwind_db_state. split.
    + intros [(E & _)|[(E & _)|(E & Ev)]]; [apply prefix_addr in E; contradiction|apply prefix_addr in E; contradiction|]. apply (prefix_inj a 3 i 1) in E as (-> & ->); [|exact Ha|reflexivity|exact Hi|reflexivity]. apply app_parts in Ev as (El & ->); [|unfold word; now rewrite !be_fixed_length]. apply word_inj in El; [|exact Hl|reflexivity]. subst l. split; [discriminate|vm_compute; reflexivity].
    + intros (Nz & ->). right. right. unfold slot_case in *. destruct ((a =? 3) && (i =? 1) && (l =? 1)) eqn:X; [|now contradiction Nz]. rewrite !andb_true_iff, !N.eqb_eq in X. destruct X as ((-> & ->) & ->). split; [reflexivity|vm_compute; reflexivity].
  - apply slot_case_wf.
Qed.
Lemma unwind_db_case : wf_db unwind_db /\ account_history unwind_db acct_case 1 2 /\ slot_records unwind_db slot_case 1 2 /\ records_of unwind_db 1 /\ get_stage_progress unwind_db kExecutionKey = Done 2 /\ single_slot unwind_db 1 3 1 1.
Proof.
  split; [exact unwind_db_wf|]. split; [exact unwind_db_accounts|]. split; [exact unwind_db_slot_records|]. split; [|split; [vm_compute; reflexivity|]].
  - split; [exists (addr 9 ++ []); apply unwind_db_changes; left; split; reflexivity|]. exists (addr 3 ++ be_fixed 8 1), (word 1 ++ []). apply unwind_db_slots. left. split; reflexivity.
  - split.
    + intros v I. apply unwind_db_state in I as [(E & _)|[(E & _)|(_ & ->)]]; [apply prefix_addr in E; contradiction|apply prefix_addr in E; contradiction|]. eexists. reflexivity.
    + intros m v M I. apply unwind_db_slots in I as [(_ & ->)|(_ & ->)]; eexists; reflexivity.
Qed.
