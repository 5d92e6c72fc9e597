(** C95 and C96: the commands that execute blocks again. *)
From stdpp Require Import gmap.
From Verif Require Import Base BlockModel TypesModel UtilModel ChainModel DbTable DbModel DbSpec BufferModel BufferSpec ExecModel ExecLemmas ChangesModel ChangesSpec ChangesLemmas BufferCases ChangesCases.

(** C95: whenever the command gets to its end, it has checked every block up to the end of the range or the first block that is missing, and what it reports
    is exactly the blocks that are not valid and the differences between the recorded and the calculated change sets. *)
Theorem C95_reports : forall bm_read exec fuel d c from to reports m, from <= to -> to < 2 ^ 64 -> check_loop bm_read exec fuel d c from to = (reports, Checked m) ->
  from <= m /\ (m = to \/ (m < to /\ read_block d m true = Done None)) /\ (forall r, In r reports -> from <= about r /\ about r < m)
  /\ forall n, from <= n -> n < m -> exists blk h, read_block d n true = Done (Some (blk, h))
    /\ ((exec c (view_at bm_read d n) blk = Invalid /\ forall r, about r = n -> In r reports <-> r = FailedBlock n)
        \/ exists ops rs recorded calculated slots, exec c (view_at bm_read d n) blk = Valid ops rs /\ read_account_changes d n = Done recorded /\ read_storage_changes d n = Done slots
             /\ b_acc_changes (buf_run buf_empty ops) !! n = Some calculated
             /\ forall r, about r = n -> In r reports <-> expected recorded calculated slots (default ∅ (b_st_changes (buf_run buf_empty ops) !! n)) r).
Proof. exact check_final. Qed.
Print Assumptions C95_reports.
(** It gets there if all blocks are in the database and every valid one changes an account. *)
Theorem C95_completes_partial : forall bm_read exec fuel d c from to, from <= to -> to < 2 ^ 64 -> (N.to_nat (to - from) < fuel)%nat ->
  (forall n, from <= n -> n < to -> exists blk h, read_block d n true = Done (Some (blk, h))
    /\ (exec c (view_at bm_read d n) blk = Invalid
        \/ exists ops rs recorded calculated slots, exec c (view_at bm_read d n) blk = Valid ops rs /\ read_account_changes d n = Done recorded /\ read_storage_changes d n = Done slots
             /\ b_acc_changes (buf_run buf_empty ops) !! n = Some calculated)) ->
  exists reports, check_loop bm_read exec fuel d c from to = (reports, Checked to).
Proof. exact check_goes. Qed.
Print Assumptions C95_completes_partial.
(** The full property has no condition on the blocks. A valid block without changes ends the command, whatever the blocks after it are like. *)
Theorem C95_no_changes_refuted :
  (forall bm_read exec fuel d c n to blk h ops rs recorded, n < to -> read_block d n true = Done (Some (blk, h)) -> exec c (view_at bm_read d n) blk = Valid ops rs ->
    read_account_changes d n = Done recorded -> b_acc_changes (buf_run buf_empty ops) !! n = None -> check_loop bm_read exec (S fuel) d c n to = ([], Fails))
  /\ check_loop (fun _ => ∅) toy_changes 5 two_blocks kMainnetConfig 1 3 = ([NotInDb 1 7; AccountMismatch 1], Fails)
  /\ check_loop (fun _ => ∅) (fun _ _ _ => Valid [] []) 5 two_blocks kMainnetConfig 1 3 = ([], Fails).
Proof. exact check_stops. Qed.
Print Assumptions C95_no_changes_refuted.
Example C95_case : check_loop (fun _ => ∅) toy_changes 5 two_blocks kMainnetConfig 1 2 = ([NotInDb 1 7; AccountMismatch 1], Checked 2).
Proof. exact check_case. Qed.

(** The state a block is executed on is what the database gives as of that block. *)
Theorem C95_reads : forall bm_read d n, let w := view_at bm_read d n in
  (forall a, v_account w a = read_account bm_read d a (Some n)) /\ (forall a i l, v_storage w a i l = read_storage bm_read d a i l (Some n))
  /\ (forall h, v_code w h = default [] (read_code d h)) /\ (forall a, v_previous w a = (do r := read_previous_incarnation d a (Some n) in Done (default 0 r))) /\ v_header w = read_header d.
Proof. exact reads_at. Qed.
Print Assumptions C95_reads.
(** So a slot has the value from before the block if the index has a chunk under exactly that block (C48_witness is such a case). *)
Theorem C95_slots_before_partial : forall bm_read d a inc loc n changed val last, wf_db d -> (forall m, val m < 2 ^ 256) -> slot_history changed val ->
  history_stored bm_read d a inc loc n changed val last -> v_storage (view_at bm_read d n) a inc loc = Done (val n).
Proof. exact slots_before. Qed.
Print Assumptions C95_slots_before_partial.
(** But accounts are the current ones: blocks of the past are executed on the wrong accounts. *)
Theorem C95_accounts_refuted :
  (forall bm_read d a n, wf_db d -> (forall k v, In (k, v) (d kCode) -> List.length k = 32%nat) -> v_account (view_at bm_read d n) a = read_account bm_read d a None)
  /\ wf_db past_db /\ read_account_changes past_db 5 = Done {[3 := encode_for_storage old_account false]} /\ v_account (view_at bm5 past_db 3) 3 = Done (Some new_account).
Proof. exact accounts_now. Qed.
Print Assumptions C95_accounts_refuted.

(** C96: when the command ends with status 0, there is a line for each block that is not valid, and a row at each multiple of 50000 with the counts
    of the blocks since the one before. *)
Theorem C96_rows_partial : forall bm_read run fuel d c from to lines, from <= to -> to < 2 ^ 64 -> scan_txs bm_read run fuel d c from to = (lines, Some 0%Z) ->
  exists m results, from <= m /\ (m = to \/ (m < to /\ read_block d m true = Done None))
    /\ (forall n, from <= n -> n < m -> exists blk h, read_block d n true = Done (Some (blk, h)) /\ run c (view_at bm_read d n) blk = Some (results n))
    /\ (forall n, In (ScanInvalid n) lines <-> from <= n /\ n < m /\ snd (results n) = false)
    /\ (forall n txs errors, In (Row n txs errors) lines <-> from <= n /\ n < m /\ n mod 50000 = 0
          /\ txs = sum_over (fun k => N.of_nat (length (fst (results k)))) (row_begin from n) (n + 1) mod 2 ^ 64
          /\ errors = sum_over (fun k => N.of_nat (length (filter (fun r => negb (rc_success r)) (fst (results k))))) (row_begin from n) (n + 1) mod 2 ^ 64).
Proof. exact scan_final. Qed.
Print Assumptions C96_rows_partial.
Theorem C96_completes : forall bm_read run fuel d c from to, from <= to -> to < 2 ^ 64 -> (N.to_nat (to - from) < fuel)%nat ->
  (forall n, from <= n -> n < to -> exists blk h res, read_block d n true = Done (Some (blk, h)) /\ run c (view_at bm_read d n) blk = Some res) ->
  exists lines, scan_txs bm_read run fuel d c from to = (lines, Some 0%Z).
Proof. exact scan_completes. Qed.
Print Assumptions C96_completes.
(** The full property would count every transaction of the range. Those after the last multiple of 50000 are in no row. *)
Theorem C96_tail_refuted :
  (forall bm_read run fuel d c from to lines, 0 < from -> from <= to -> to <= 50000 -> scan_txs bm_read run fuel d c from to = (lines, Some 0%Z) -> forall n txs errors, ~ In (Row n txs errors) lines)
  /\ scan_txs (fun _ => ∅) (fun _ _ _ => Some ([mkReceipt TxModel.kLegacy false 21000 [] []], true)) 5 two_blocks kMainnetConfig 1 3 = ([], Some 0%Z).
Proof. exact scan_tail. Qed.
Print Assumptions C96_tail_refuted.
(** And blocks that are not valid would show in the status. *)
Theorem C96_status_refuted : scan_txs (fun _ => ∅) toy_run 5 two_blocks kMainnetConfig 1 3 = ([ScanInvalid 1; ScanInvalid 2], Some 0%Z).
Proof. exact scan_status. Qed.
Print Assumptions C96_status_refuted.
Example C96_case : scan_txs (fun _ => ∅) (fun _ _ _ => Some ([mkReceipt TxModel.kLegacy false 21000 [] []], true)) 5 around_row kMainnetConfig 49999 60000 = ([Row 50000 2 2], Some 0%Z).
Proof. exact scan_case. Qed.
