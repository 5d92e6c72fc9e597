(** Model of cmd/check_changes.cpp and cmd/scan_txs.cpp: commands that execute blocks of the past again.

    Executing one block is a parameter, as in ExecModel: it sees the state through the reads of the buffer, here at the block given.
    Command lines, opening the database, the chain configuration (given), renewing the transaction and progress messages are left out;
    the database does not change meanwhile. *)
From Coq Require Import Strings.String.
From stdpp Require Import gmap.
From Verif Require Import Base RlpModel TypesModel TxModel BlockModel UtilModel ChainModel DbTable DbModel BufferModel BufferSpec ExecModel.

(** cmd/check_changes.cpp:32-38 *)
Definition kPhantomAccounts : list N :=
  [0x000000000000000000636f6e736f6c652e6c6f67; 0x2386f26fc10000b4e16d0168e52d35cacd2c6185; 0x5a719cf3e02c17c876f6d294adb5cb7c6eb47e2f].
(** What check_changes logs, in the order of cmd/check_changes.cpp:95-142 (within a change set the order is that of a list of the map). *)
Inductive change_report :=
| FailedBlock (n : N)
| IsMissing (n a : N)
| ValueMismatch (n a : N) (calculated recorded : bytes)
| NotInDb (n a : N)
| AccountMismatch (n : N)
| StorageMismatch (n : N).
(** How the loop ends: before a block; by an exception (status -5); undefined or ended from inside of the execution; without fuel. *)
Inductive check_end := Checked (n : N) | Fails | Dies | Running.

Section Check.
  Variable bm_read : bytes -> bitmap.
  Variable exec : chain_config -> view -> block -> exec_result.

  (** cmd/check_changes.cpp:92: the buffer of a block reads at that block. *)
  Definition view_at (d : database) (n : N) : view :=
    mkView (buf_read_account bm_read d (Some n) buf_empty) (buf_read_storage bm_read d (Some n) buf_empty) (buf_read_code d buf_empty) (buf_previous_incarnation d (Some n) buf_empty) (read_header d).

  (** cmd/check_changes.cpp:105-118 *)
  Definition from_db (n : N) (calculated : gmap N bytes) (e : N * bytes) : list change_report :=
    match calculated !! e.1 with
    | None => if existsb (N.eqb e.1) kPhantomAccounts then [] else [IsMissing n e.1]
    | Some v => if bytes_eqb v e.2 then [] else [ValueMismatch n e.1 v e.2]
    end.
  (** cmd/check_changes.cpp:119-124 *)
  Definition from_calculated (n : N) (recorded : gmap N bytes) (e : N * bytes) : list change_report :=
    match recorded !! e.1 with None => [NotInDb n e.1] | Some _ => [] end.
  (** cmd/check_changes.cpp:102-130 *)
  Definition compare_accounts (n : N) (recorded calculated : gmap N bytes) : list change_report :=
    if bool_decide (calculated = recorded) then []
    else
      let found := concat (map (from_db n calculated) (map_to_list recorded)) ++ concat (map (from_calculated n recorded) (map_to_list calculated)) in
      match found with [] => [] | _ => found ++ [AccountMismatch n] end.
  (** cmd/check_changes.cpp:137-142 *)
  Definition compare_storage (n : N) (recorded calculated : gmap (N * N * N) bytes) : list change_report :=
    if bool_decide (calculated = recorded) then [] else [StorageMismatch n].

  (** cmd/check_changes.cpp:92-142; at (101) throws when the block has no entry. The result is what is logged, and how it goes on. *)
  Inductive block_end := Goes | Throws_ | Dies_.
  Definition check_block (d : database) (c : chain_config) (n : N) (blk : block) : list change_report * block_end :=
    match exec c (view_at d n) blk with
    | Raises | Breaks => ([], Dies_)
    | Invalid => ([FailedBlock n], Goes)
    | Valid ops _ =>
      let b := buf_run buf_empty ops in
      match read_account_changes d n with
      | Undefined => ([], Dies_)
      | Throws => ([], Throws_)
      | Done recorded =>
        match b_acc_changes b !! n with
        | None => ([], Throws_)
        | Some calculated =>
          let accounts := compare_accounts n recorded calculated in
          match read_storage_changes d n with
          | Undefined => (accounts, Dies_)
          | Throws => (accounts, Throws_)
          | Done recorded => (accounts ++ compare_storage n recorded (default ∅ (b_st_changes b !! n)), Goes)
          end
        end
      end
    end.
  (** cmd/check_changes.cpp:85-154 *)
  Fixpoint check_loop (fuel : nat) (d : database) (c : chain_config) (n to : N) : list change_report * check_end :=
    match fuel with
    | O => ([], Running)
    | S fuel =>
      if n <? to then
        match read_block d n true with
        | Undefined => ([], Dies)
        | Throws => ([], Fails)
        | Done None => ([], Checked n)
        | Done (Some (blk, _)) =>
          let '(reports, e) := check_block d c n blk in
          match e with
          | Throws_ => (reports, Fails)
          | Dies_ => (reports, Dies)
          | Goes => let '(later, e) := check_loop fuel d c ((n + 1) mod 2 ^ 64) to in (reports ++ later, e)
          end
        end
      else ([], Checked n)
    end.
End Check.

(** ** cmd/scan_txs.cpp. [run] gives the receipts (of the transactions executed before an error too) and whether the block is valid;
    [None]: the process ends inside of it. *)
Section Scan.
  Variable bm_read : bytes -> bitmap.
  Variable run : chain_config -> view -> block -> option (list receipt * bool).
  (** A line of the output: the block, and the counts of transactions and of failed ones; or a validation error (at a block). *)
  Inductive scan_line := Row (n txs errors : N) | ScanInvalid (n : N).
  Definition count_failed (rs : list receipt) : N := N.of_nat (List.length (filter (fun r => negb (rc_success r)) rs)).
  (** cmd/scan_txs.cpp:71-113; the assert on the number of receipts (92) is not there in a release build. *)
  Fixpoint scan_loop (fuel : nat) (d : database) (c : chain_config) (n to txs errors : N) : list scan_line * check_end :=
    match fuel with
    | O => ([], Running)
    | S fuel =>
      if n <? to then
        match read_block d n true with
        | Undefined => ([], Dies)
        | Throws => ([], Fails)
        | Done None => ([], Checked n)
        | Done (Some (blk, _)) =>
          match run c (view_at bm_read d n) blk with
          | None => ([], Dies)
          | Some (rs, ok) =>
            let txs := (txs + N.of_nat (List.length rs)) mod 2 ^ 64 in
            let errors := (errors + count_failed rs) mod 2 ^ 64 in
            let invalid := if ok then [] else [ScanInvalid n] in
            let '(row, txs, errors) := if n mod 50000 =? 0 then ([Row n txs errors], 0, 0) else ([], txs, errors) in
            let '(later, e) := scan_loop fuel d c ((n + 1) mod 2 ^ 64) to txs errors in
            (invalid ++ row ++ later, e)
          end
        end
      else ([], Checked n)
    end.
  (** cmd/scan_txs.cpp:43-48, 115-120: the status of the process; [None]: it does not end by itself. *)
  Definition scan_txs (fuel : nat) (d : database) (c : chain_config) (from to : N) : list scan_line * option Z :=
    if to <? from then ([], Some (-1)%Z)
    else
      let '(lines, e) := scan_loop fuel d c from to 0 0 in
      (lines, match e with Checked _ => Some 0%Z | Fails => Some (-1)%Z | Dies | Running => None end).
End Scan.
