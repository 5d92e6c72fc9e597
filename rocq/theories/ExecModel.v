(** Model of the batch execution of blocks: silkworm_execute_blocks (tg_api/silkworm_tg_api.cpp), the command that drives it
    (cmd/execute.cpp) and the execution stage (db/silkworm/stagedsync/stage_execution.cpp:34-102).

    Executing one block (execution/execution.cpp, C63) is a parameter: it sees the state only through the reads of the buffer and
    leaves a list of updates of the buffer. The size of a batch (Buffer::current_batch_size) and the two CBOR encoders are parameters
    too. Logging is left out. *)
From Coq Require Import Strings.String.
From stdpp Require Import gmap.
From Verif Require Import Base RlpModel TypesModel TxModel BlockModel UtilModel ChainModel DbTable DbModel BufferModel BufferSpec UnwindModel.

(** The reads of the State interface that block execution uses (state/state.hpp). *)
Record view := mkView {
  v_account : N -> out (option account);
  v_storage : N -> N -> N -> out N;
  v_code : bytes -> bytes;
  v_previous : N -> out N;
  v_header : N -> bytes -> out (option block_header)
}.
(** What execute_block comes to: updates and receipts; a validation error; an exception, which ends the process, since execute_block is
    noexcept (execution.hpp) and so no caller sees it; undefined behaviour. Neither of the last two leads to a commit. *)
Inductive exec_result := Valid (ops : list buf_op) (receipts : list receipt) | Invalid | Raises | Breaks.
(** silkworm_tg_api.h:43-53. [Failed] stands for the four codes for exceptions (DbError, MissingSenders, DecodingError, UnknownError). *)
Inductive status := Success | BlockNotFound | UnknownChainId | InvalidBlock | Failed.
Definition kBodiesKey : bytes := str "Bodies"%string.

Section Exec.
  Variable bm_read : bytes -> bitmap.
  Variable exec : chain_config -> view -> block -> exec_result.
  Variable batch_size_of : buffer -> N.
  Variable cbor_logs : list log -> bytes.
  Variable cbor_receipts : list receipt -> bytes.

  (** buffer.cpp:362-412 and read_header *)
  Definition view_of (d : database) (b : buffer) : view :=
    mkView (buf_read_account bm_read d None b) (buf_read_storage bm_read d None b) (buf_read_code d b) (buf_previous_incarnation d None b) (read_header d).
  (** buffer.cpp:261-284 *)
  Definition put_log (n : N) (m : gmap (N * N) bytes) (ir : N * receipt) : gmap (N * N) bytes :=
    match rc_logs (snd ir) with [] => m | l => <[(n, fst ir) := cbor_logs l]> m end.
  Definition insert_receipts (b : buffer) (n : N) (rs : list receipt) : buffer :=
    mkBuf (b_accounts b) (b_storage b) (b_acc_changes b) (b_st_changes b) (b_incarnations b) (b_code b) (b_prefix_code b)
      (<[n := cbor_receipts rs]> (b_receipts b)) (fold_left (put_log n) (combine (map N.of_nat (seq 0 (List.length rs))) rs) (b_logs b)) (b_block b) (b_changed b).

  (** silkworm_tg_api.cpp:48-80: the loop. [last] is *last_executed_block. The result is the status, the content of the transaction and
      *last_executed_block. The block numbers stay below 2^64 - 1 (nothing wraps). *)
  Fixpoint execute_loop (fuel : nat) (c : chain_config) (d : database) (b : buffer) (n max batch : N) (wr : bool) (last : option N) : out (status * database * option N) :=
    match fuel with
    | O => Undefined
    | S fuel =>
      if max <? n then Done (Success, buf_write_to_db b d, last)
      else match read_block d n true with
           | Undefined => Undefined
           | Throws => Done (Failed, d, last)
           | Done None => Done (BlockNotFound, d, last)
           | Done (Some (blk, _)) =>
             match exec c (view_of d b) blk with
             | Raises | Breaks => Undefined
             | Invalid => Done (InvalidBlock, d, last)
             | Valid ops rs =>
               let b := buf_run b ops in
               let b := if wr then insert_receipts b n rs else b in
               if batch <=? batch_size_of b then Done (Success, buf_write_to_db b d, Some n)
               else execute_loop fuel c d b (n + 1) max batch wr (Some n)
             end
           end
    end.
  (** silkworm_tg_api.cpp:29-46. The buffer of a call starts empty. *)
  Definition execute_blocks (fuel : nat) (d : database) (chain_id start max batch : N) (wr : bool) (last : option N) : out (status * database * option N) :=
    match lookup_chain_config chain_id with
    | None => Done (UnknownChainId, d, last)
    | Some c => execute_loop fuel c d buf_empty start max batch wr last
    end.

  (** cmd/execute.cpp:74-101: the loop of the command. The result is the list of the databases it commits, in order: a crash leaves
      the last of those committed before it, or the one at the start. *)
  Fixpoint command_loop (fuel : nat) (d : database) (chain_id n cur to batch : N) (wr : bool) : out (list database) :=
    match fuel with
    | O => Undefined
    | S fuel =>
      if to <? n then Done []
      else
        do (r, last) := execute_blocks fuel d chain_id n to batch wr (Some cur) in
        let cur := default cur last in
        match fst r with
        | Success =>
          do d := set_stage_progress (snd r) kExecutionKey cur in
          do ds := command_loop fuel d chain_id (cur + 1) cur to batch wr in Done (d :: ds)
        | BlockNotFound => do d := set_stage_progress (snd r) kExecutionKey cur in Done [d]
        | _ => Done []
        end
    end.
  (** cmd/execute.cpp:58-72; the chain id is that of the configuration in the database, here a parameter. *)
  Definition command (fuel : nat) (d : database) (chain_id to batch : N) : out (list database) :=
    do p := get_stage_progress d kExecutionKey in
    command_loop fuel d chain_id (p + 1) p to batch (read_storage_mode_receipts d).

  (** *** The execution stage *)
  (** A buffer without any entry. *)
  Definition buf_clean (b : buffer) : bool :=
    bool_decide (b_accounts b = ∅) && bool_decide (b_storage b = ∅) && bool_decide (b_incarnations b = ∅) && bool_decide (b_code b = ∅) && bool_decide (b_prefix_code b = ∅)
    && bool_decide (b_acc_changes b = ∅) && bool_decide (b_st_changes b = ∅) && bool_decide (b_receipts b = ∅) && bool_decide (b_logs b = ∅).
  (** Writing out in a transaction that is read-only when [ro]: the first write throws (MDBX_EACCESS). Every entry of the buffer brings a
      write: an account or a slot comes with an entry of a change set. *)
  Definition write_out_in (ro : bool) (b : buffer) (d : database) : out database := if ro && negb (buf_clean b) then Throws else Done (buf_write_to_db b d).
  (** stage_execution.cpp:34-67: [Done (true, d, n)]: kStageSuccess; [Done (false, d, n)]: kStageBadChainSequence; n is *block_num. *)
  Fixpoint stage_loop (fuel : nat) (ro : bool) (c : chain_config) (d : database) (b : buffer) (n max batch : N) (wr : bool) : out (bool * database * N) :=
    match fuel with
    | O => Undefined
    | S fuel =>
      if max <? n then do d := write_out_in ro b d in Done (true, d, n)
      else
        do r := read_block d n true in
        match r with
        | None => Done (false, d, n)
        | Some (blk, _) =>
          match exec c (view_of d b) blk with
          | Raises | Breaks => Undefined
          | Invalid => Throws
          | Valid ops rs =>
            let b := buf_run b ops in
            let b := if wr then insert_receipts b n rs else b in
            if batch <=? batch_size_of b then do d := write_out_in ro b d in Done (true, d, n)
            else stage_loop fuel ro c d b (n + 1) max batch wr
          end
        end
    end.
  (** stage_execution.cpp:94-101 *)
  Fixpoint stage_batches (fuel : nat) (ro : bool) (c : chain_config) (d : database) (n max batch : N) (wr : bool) : out (bool * database) :=
    match fuel with
    | O => Undefined
    | S fuel =>
      if max <? n then Done (true, d)
      else
        do (r, n') := stage_loop fuel ro c d buf_empty n max batch wr in
        if fst r then stage_batches fuel ro c (snd r) n' max batch wr else Done (false, snd r)
    end.
  (** stage_execution.cpp:69-92; the transaction is env.start_read(). kBatchSize is the parameter [batch]. *)
  Definition stage_execution (fuel : nat) (c : chain_config) (d : database) (batch : N) : out (bool * database) :=
    do max := get_stage_progress d kBodiesKey in
    do n := get_stage_progress d kExecutionKey in
    let wr := read_storage_mode_receipts d in
    if wr && (negb (migration_happened d (str "receipts_cbor_encode"%string)) || negb (migration_happened d (str "receipts_store_logs_separately"%string))) then Throws
    else if negb (migration_happened d (str "acc_change_set_dup_sort_18"%string)) || negb (migration_happened d (str "storage_change_set_dup_sort_22"%string)) then Throws
    else if negb (migration_happened d (str "tx_table_4"%string)) then Throws
    else stage_batches fuel true c d n max batch wr.
End Exec.
