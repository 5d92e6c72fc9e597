(** Model of the HashState stage: db/silkworm/stagedsync/stage_hashstate.cpp.

    The tables are those of DbModel and the collector that of EtlModel. Opening the environment, committing, the ETL directory and
    logging (with the counter of percents, which nothing else reads) are left out: the result is the database that is committed;
    an exception leaves the transaction uncommitted. *)
From Coq Require Import Strings.String.
From Verif Require Import Base RlpModel TypesModel DbTable DbModel EtlModel UnwindModel.

(** cursor::put with MDBX_APPEND (libmdbx): the key has to be greater than the last one of the table, with or without duplicates. *)
Definition append (t : table) (k v : bytes) : out table :=
  match rev t with
  | e :: _ => if lex_lt (fst e) k then Done (t ++ [(k, v)]) else Throws
  | [] => Done [(k, v)]
  end.
(** etl/collector.cpp:82-84, 127-129 with flags = MDBX_APPEND *)
Fixpoint append_all (t : table) (l : list entry) : out table :=
  match l with [] => Done t | e :: r => do t := append t (fst e) (snd e) in append_all t r end.

Definition kHashStateKey : bytes := str "HashState"%string.

(** std::memcpy(&new_key[pos], src, |src|) on a key that is long enough *)
Definition copy_at (key : bytes) (pos : nat) (src : bytes) : bytes := firstn pos key ++ src ++ skipn (pos + List.length src) key.
Definition zeros (n : nat) : bytes := repeat 0 n.

Inductive operation := HashAccount | HashStorage | Code.

Section HashState.
  Variable keccak : bytes -> bytes.
  Variable pick : list (entry * nat) -> nat.   (* the heap of the collector: EtlModel *)

  (** stage_hashstate.cpp:78-90: the position moves on by kAddressLength (20) after the 32 bytes of the hash, and what is left of the
      key after address and incarnation is hashed. A key shorter than 28 bytes: remove_prefix is undefined. *)
  Definition clean_storage_key (key : bytes) : out bytes :=
    if (List.length key <? 28)%nat then Undefined
    else
      let new_key := zeros 72 in
      let new_key := copy_at new_key 0 (keccak (firstn 20 key)) in
      let key := skipn 20 key in
      let new_key := copy_at new_key 20 (firstn 8 key) in
      let key := skipn 8 key in
      Done (copy_at new_key 28 (keccak key)).
  (** stage_hashstate.cpp:64-96: what is collected for accounts and for storage; key.at(0) throws on an empty key. *)
  Fixpoint clean_entries (state : table) : out (list entry * list entry) :=
    match state with
    | [] => Done ([], [])
    | (key, value) :: r =>
      match key with
      | [] => Throws
      | _ =>
        if Nat.eqb (List.length key) 20 then
          do (accounts, storage) := clean_entries r in Done ((keccak key, value) :: accounts, storage)
        else
          do k := clean_storage_key key in
          do (accounts, storage) := clean_entries r in Done (accounts, (k, value) :: storage)
      end
    end.
  (** Collecting and loading with MDBX_APPEND; a collector of 512 MiB. *)
  Definition load_append (t : table) (entries : list entry) : out table :=
    do (l, _) := load pick (List.length entries) (fold_left collect entries (new_collector (512 * 2 ^ 20))) in append_all t l.
  (** stage_hashstate.cpp:52-105 *)
  Definition promote_clean_state (d : database) : out database :=
    do (accounts, storage) := clean_entries (d kPlainState) in
    do a := load_append (d kHashedAccounts) accounts in
    let d := set_table d kHashedAccounts a in
    do s := load_append (d kHashedStorage) storage in
    Done (set_table d kHashedStorage s).
  (** stage_hashstate.cpp:113-123; slice::safe_middle throws beyond the end. *)
  Fixpoint clean_codes (codes : table) : out (list entry) :=
    match codes with
    | [] => Done []
    | (key, value) :: r =>
      if (List.length key <? 28)%nat then Throws
      else do l := clean_codes r in Done ((keccak (firstn 20 key) ++ firstn 8 (skipn 20 key), value) :: l)
    end.
  (** stage_hashstate.cpp:107-129 *)
  Definition promote_clean_code (d : database) : out database :=
    do l := clean_codes (d kPlainContractCode) in
    do t := load_append (d kContractCode) l in
    Done (set_table d kContractCode t).

  (** stage_hashstate.cpp:38-47 *)
  Definition tables_for_promote (o : operation) : tbl * tbl :=
    match o with
    | HashAccount => (kPlainAccountChangeSet, kHashedAccounts)
    | HashStorage => (kPlainStorageChangeSet, kHashedStorage)
    | Code => (kPlainAccountChangeSet, kContractCode)
    end.
  (** stage_hashstate.cpp:175-178, 282-285: keccak(address) ++ incarnation ++ keccak(location); [db_key]: 60 bytes.
      substr throws and the read of the incarnation is undefined on shorter keys, which convert_to_db_format does not yield for this
      change set (their keys are 36 bytes). *)
  Definition hashed_storage_key (db_key : bytes) : out bytes :=
    if (List.length db_key <? 28)%nat then Undefined
    else Done (keccak (firstn 20 db_key) ++ firstn 8 (skipn 20 db_key) ++ keccak (skipn 28 db_key)).
  (** stage_hashstate.cpp:148-214: one record of the change set; the target table is changed. *)
  Definition promote_record (o : operation) (d : database) (db_key : bytes) : out database :=
    match o with
    | HashAccount =>
      match lookup (d kPlainState) db_key with
      | None => Done d
      | Some v => Done (put d kHashedAccounts (keccak db_key) v)
      end
    | HashStorage =>
      match lookup (d kPlainState) db_key with
      | None => Done d
      | Some v => do k := hashed_storage_key db_key in Done (put d kHashedStorage k v)
      end
    | Code =>
      match lookup (d kPlainState) db_key with
      | None => Done d
      | Some v =>
        do incarnation := err_handler (extract_incarnation v) in
        if incarnation =? 0 then Done d
        else
          let plain_key := firstn 20 db_key ++ be_fixed 8 incarnation in
          match lookup (d kPlainContractCode) plain_key with
          | None => Done d
          | Some h => Done (put d kContractCode (keccak (firstn 20 plain_key) ++ firstn 8 (skipn 20 plain_key)) h)
          end
      end
    end.
  Fixpoint promote_records (o : operation) (d : database) (p : table) : out database :=
    match p with
    | [] => Done d
    | (key, value) :: r =>
      do (db_key, _) := convert_to_db_format key value in
      do d := promote_record o d db_key in
      promote_records o d r
    end.
  (** stage_hashstate.cpp:135-215; the sum is of 64 bits. *)
  Definition promote (o : operation) (d : database) : out database :=
    do progress := get_stage_progress d kHashStateKey in
    promote_records o d (lower_bound (d (fst (tables_for_promote o))) (block_key ((progress + 1) mod 2 ^ 64))).

  (** stage_hashstate.cpp:217-245 *)
  Definition stage_hashstate (d : database) : out database :=
    do last := get_stage_progress d kHashStateKey in
    do d := if negb (last =? 0) then
              do d := promote HashAccount d in do d := promote HashStorage d in promote Code d
            else
              do d := promote_clean_state d in promote_clean_code d in
    do n := get_stage_progress d kExecutionKey in
    set_stage_progress d kHashStateKey n.

  (** cursor::find and then cursor::erase: the first record with the key *)
  Definition erase_found (t : table) (k : bytes) : table := match find t k with e :: _ => erase_at t e | [] => t end.
  (** stage_hashstate.cpp:263-321 *)
  Definition unwind_record (o : operation) (d : database) (db_key : bytes) : out database :=
    match o with
    | HashAccount => Done (set_table d kHashedAccounts (erase_found (d kHashedAccounts) (keccak db_key)))
    | HashStorage => do k := hashed_storage_key db_key in Done (set_table d kHashedStorage (erase_found (d kHashedStorage) k))
    | Code =>
      match lookup (d kPlainState) db_key with
      | None => Done d
      | Some v =>
        do incarnation := err_handler (extract_incarnation v) in
        if incarnation =? 0 then Done d
        else Done (set_table d kContractCode (erase_found (d kContractCode) (keccak (firstn 20 db_key) ++ be_fixed 8 incarnation)))
      end
    end.
  Fixpoint unwind_records (o : operation) (d : database) (p : table) : out database :=
    match p with
    | [] => Done d
    | (key, value) :: r =>
      do (db_key, _) := convert_to_db_format key value in
      do d := unwind_record o d db_key in
      unwind_records o d r
    end.
  (** stage_hashstate.cpp:252-322 *)
  Definition hashstate_unwind (o : operation) (d : database) (unwind_to : N) : out database :=
    unwind_records o d (lower_bound (d (fst (tables_for_promote o))) (block_key ((unwind_to + 1) mod 2 ^ 64))).
  (** stage_hashstate.cpp:324-361: [None] stands for kStageAborted, with which nothing is committed; exceptions are caught. *)
  Definition unwind_hashstate (d : database) (unwind_to : N) : out (option database) :=
    match (do height := get_stage_progress d kHashStateKey in
           if height <=? unwind_to then Done None
           else
             do d := hashstate_unwind HashAccount d unwind_to in
             do d := hashstate_unwind HashStorage d unwind_to in
             do d := hashstate_unwind Code d unwind_to in
             do d := set_stage_progress d kHashStateKey unwind_to in Done (Some d)) with
    | Throws => Done None
    | r => r
    end.
End HashState.
