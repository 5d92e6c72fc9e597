(** Model of the unwinding of the execution stage: db/silkworm/stagedsync/stage_execution.cpp:104-230 and
    stagedsync/util.cpp:40-48.

    The tables are those of DbModel. Opening the environment and committing are left out: the result is the database that is
    committed. Logging is left out. *)
From Coq Require Import Strings.String.
From Verif Require Import Base RlpModel TypesModel DbTable DbModel.

(** util.cpp:40-48; std::string::substr throws beyond the end, memcpy does not check. *)
Definition convert_to_db_format (key value : bytes) : out (bytes * bytes) :=
  if Nat.eqb (List.length key) 8 then
    if (List.length value <? 20)%nat then Throws else Done (firstn 20 value, skipn 20 value)
  else if (List.length key <? 36)%nat || (List.length value <? 32)%nat then Undefined
  else Done (firstn 28 (skipn 8 key) ++ firstn 32 value, skipn 32 value).

(** stage_execution.cpp:122-129: for (i = state_incarnation; i > account.incarnation && i > 0; --i); seek is MDBX_SET. *)
Fixpoint erase_codes (count : nat) (i : N) (address : bytes) (codes : table) : table :=
  match count with
  | O => codes
  | S count => erase_codes count (i - 1) address (erase_key codes (storage_prefix address i))
  end.
(** stage_execution.cpp:104-153; [state] and [codes] are the tables PlainState and PlainContractCode. *)
Definition collect_for_unwind (key value : bytes) (state codes : table) : out (table * table) :=
  if Nat.eqb (List.length key) 20 then
    match value with
    | [] => Done (state, erase_key codes key)
    | _ =>
      do acc := err_handler (decode_account value) in
      do acc := if (0 <? a_incarnation acc) && bytes_eqb (a_code_hash acc) kEmptyHash then
                  match lookup codes (storage_prefix key (a_incarnation acc)) with
                  | None => Throws
                  | Some h => if (List.length h <? 32)%nat then Undefined else Done (mkAccount (a_nonce acc) (a_balance acc) (firstn 32 h) (a_incarnation acc))
                  end
                else Done acc in
      do codes := match lookup state key with
                  | None => Done codes
                  | Some e =>
                    do i := err_handler (extract_incarnation e) in
                    Done (erase_codes (N.to_nat (i - a_incarnation acc)) i key codes)
                  end in
      Done (put_dup (erase_key state key) key (encode_for_storage acc false), codes)
    end
  else
    (* substr(28) throws on a shorter key, which convert_to_db_format does not yield *)
    if (List.length key <? 28)%nat then Throws
    else
      let location := skipn 28 key in
      let key1 := firstn 28 key in
      let state := match find_multivalue state key1 location with e :: _ => erase_at state e | [] => state end in
      Done (match value with [] => state | _ => put_dup state key1 (location ++ value) end, codes).

(** stage_execution.cpp:155-170; [source] from its last record backwards. *)
Fixpoint walk_back (source : list entry) (unwind_to : N) (state codes : table) : out (table * table) :=
  match source with
  | [] => Done (state, codes)
  | (key, value) :: r =>
    if (List.length key <? 8)%nat then Undefined
    else if be_to_N (firstn 8 key) =? unwind_to then Done (state, codes)
    else
      do (k, v) := convert_to_db_format key value in
      do (state, codes) := collect_for_unwind k v state codes in
      walk_back r unwind_to state codes
  end.
Definition walk_collect (source : table) (unwind_to : N) (state codes : table) : out (table * table) := walk_back (rev source) unwind_to state codes.

(** stage_execution.cpp:172-179; seek is MDBX_SET, so the key has to be there exactly; everything from there on is erased. *)
Definition unwind_table_from (t : table) (start : bytes) : table := firstn (List.length t - List.length (find t start)) t.

Definition kExecutionKey : bytes := str "Execution"%string.
(** stage_execution.cpp:181-230 *)
Definition unwind_execution (d : database) (unwind_to : N) : out database :=
  do block_number := get_stage_progress d kExecutionKey in
  if unwind_to =? 0 then
    let d := set_table d kPlainState [] in
    let d := set_table d kPlainContractCode [] in
    let d := set_table d kPlainAccountChangeSet [] in
    let d := set_table d kPlainStorageChangeSet [] in
    let d := set_table d kBlockReceipts [] in
    let d := set_table d kLogs [] in
    let d := set_table d kCallTraceSet [] in
    set_stage_progress d kExecutionKey 0
  else if block_number <=? unwind_to then Done d
  else
    do (state, codes) := walk_collect (d kPlainAccountChangeSet) unwind_to (d kPlainState) (d kPlainContractCode) in
    do (state, codes) := walk_collect (d kPlainStorageChangeSet) unwind_to state codes in
    let start := be_fixed 8 (unwind_to + 1) in
    let cut d t := set_table d t (unwind_table_from (d t) start) in
    let d := set_table (set_table d kPlainState state) kPlainContractCode codes in
    let d := cut (cut (cut (cut (cut d kPlainAccountChangeSet) kPlainStorageChangeSet) kBlockReceipts) kLogs) kCallTraceSet in
    set_stage_progress d kExecutionKey unwind_to.
