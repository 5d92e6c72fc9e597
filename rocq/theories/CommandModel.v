(** Model of the commands that run a stage: cmd/hashstate.cpp, history_index.cpp, log_index.cpp, tx_lookup.cpp and blockhashes.cpp. A command yields the databases it commits, in order, and its status; opening the database, making the directory for
    temporary files, the command line and logging are left out. *)
From stdpp Require Import gmap.
From Verif Require Import Base DbTable DbModel EtlModel HashStateModel BufferModel IndexModel UnwindModel.

(** txn::clear_map *)
Definition clear_map (d : database) (t : tbl) : database := set_table d t [].
(** What a command has committed, and its status. *)
Notation ended := (list database * Z)%type.

(** stagedsync/util.cpp:23-38 (check_stagedsync_error), and the handler of exceptions of each main (e.g. blockhashes.cpp:47-50). A stage that
    changes nothing need not commit: the database is the same. *)
Definition run_stage (r : out (stage_result * database)) : out ended :=
  match r with
  | Done (kStageSuccess, d) => Done ([d], 0%Z)
  | Done (kStageBadBlockHash, _) => Done ([], 0%Z)
  | Done (kStageBadChainSequence, _) | Throws => Done ([], (-5)%Z)
  | Undefined => Undefined
  end.
(** history_index.cpp:53-59, log_index.cpp:60-70, tx_lookup.cpp:47-56: with --full, a first transaction clears the tables and the progress. *)
Definition with_full (full : bool) (tables : list tbl) (key : bytes) (stage : database -> out (stage_result * database)) (d : database) : out ended :=
  if full then
    match set_stage_progress (fold_left clear_map tables d) key 0 with
    | Done d => do (l, s) := run_stage (stage d) in Done (d :: l, s)
    | Throws => Done ([], (-5)%Z)
    | Undefined => Undefined
    end
  else run_stage (stage d).

Section Commands.
  Variable keccak : bytes -> bytes.
  Variable pick : list (entry * nat) -> nat.
  Variable walk : bitmaps -> bitmaps.
  Variable size_in_bytes : bitmap -> N.
  Variable bm_write : bitmap -> bytes.
  Variable bm_read : bytes -> bitmap.
  Variable cbor_bytes : bytes -> list bytes.

  (** history_index.cpp:33-72 *)
  Definition history_index (full storage : bool) (d : database) : out ended :=
    with_full full [if storage then kStorageHistory else kAccountHistory] (if storage then kStorageHistoryIndexKey else kAccountHistoryKey)
      (history_index_stage pick walk size_in_bytes bm_write bm_read storage) d.
  (** log_index.cpp:39-78; there the progress is set first, which makes no difference. *)
  Definition log_index (full : bool) (d : database) : out ended :=
    with_full full [kLogTopicIndex; kLogAddressIndex] kLogIndexKey (stage_log_index pick walk size_in_bytes bm_write bm_read cbor_bytes) d.
  (** tx_lookup.cpp:32-65 *)
  Definition tx_lookup (full : bool) (d : database) : out ended := with_full full [kTxLookup] kTxLookupKey (stage_tx_lookup keccak pick) d.
  (** blockhashes.cpp:33-52 *)
  Definition blockhashes (d : database) : out ended := run_stage (stage_blockhashes d).

  (** hashstate.cpp:53-80: the body of the try block, up to the commit *)
  Definition hashstate_body (full incrementally reset : bool) (d : database) : out database :=
    do d := if full || reset then
              set_stage_progress (clear_map (clear_map (clear_map d kHashedAccounts) kHashedStorage) kContractCode) kHashStateKey 0
            else Done d in
    if reset then Done d
    else
      do last := get_stage_progress d kHashStateKey in
      do d := if negb (last =? 0) || incrementally then
                do d := promote keccak HashAccount d in do d := promote keccak HashStorage d in promote keccak Code d
              else
                do d := promote_clean_state keccak pick d in promote_clean_code keccak pick d in
      do n := get_stage_progress d kExecutionKey in
      set_stage_progress d kHashStateKey n.
  (** hashstate.cpp:31-87 *)
  Definition hashstate (full incrementally reset : bool) (d : database) : out ended :=
    match hashstate_body full incrementally reset d with
    | Done d => Done ([d], 0%Z)
    | Throws => Done ([], (-5)%Z)
    | Undefined => Undefined
    end.
End Commands.
