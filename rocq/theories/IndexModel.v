(** Model of the stages that build indexes: db/silkworm/stagedsync/stage_blockhashes.cpp, stage_tx_lookup.cpp,
    stage_history_index.cpp, stage_log_index.cpp and listener_log_index.hpp.

    The tables are those of DbModel, the collector that of EtlModel, bitmaps those of BufferModel. Opening the environment,
    committing, the ETL directory and logging are left out: the result is the database that is committed; an exception leaves the
    transaction uncommitted. *)
From Coq Require Import Strings.String.
From stdpp Require Import gmap.
From Verif Require Import Base RlpModel TypesModel DbTable DbModel EtlModel HashStateModel BufferModel.

Inductive stage_result := kStageSuccess | kStageBadChainSequence | kStageBadBlockHash.

Definition kBlockHashesKey : bytes := str "BlockHashes"%string.
Definition kTxLookupKey : bytes := str "TxLookup"%string.
Definition kLogIndexKey : bytes := str "LogIndex"%string.
Definition kAccountHistoryKey : bytes := str "AccountHistoryIndex"%string.
Definition kStorageHistoryIndexKey : bytes := str "StorageHistoryIndex"%string.

(** boost::endian::load_big_u64 on the data of a slice, whose length is not looked at *)
Definition load_big_u64 (b : bytes) : out N := if (List.length b <? 8)%nat then Undefined else Done (be_to_N (firstn 8 b)).

(** cursor::put with MDBX_UPSERT or MDBX_APPEND into a table without duplicates *)
Inductive put_flags := MDBX_UPSERT | MDBX_APPEND.
Definition cursor_put (flags : put_flags) (t : table) (k v : bytes) : out table :=
  match flags with MDBX_UPSERT => Done (upsert t k v) | MDBX_APPEND => append t k v end.
(** etl/collector.cpp:82-84, 127-129 *)
Fixpoint put_entries (flags : put_flags) (t : table) (l : list entry) : out table :=
  match l with [] => Done t | e :: r => do t := cursor_put flags t (fst e) (snd e) in put_entries flags t r end.

Section BlockHashes.
  (** stage_blockhashes.cpp:55-79: what to_next returns is thrown away, header_data stays as it is. Left: the result to return;
      right: the entries collected and block_number (of 32 bits). *)
  Fixpoint blockhashes_loop (fuel : nat) (header_data : table) (expected : N) (collected : list entry) (block_number : N)
    : out (stage_result + list entry * N) :=
    match header_data with
    | [] => Done (inr (collected, block_number))
    | (key, value) :: _ =>
      match fuel with
      | O => Undefined
      | S fuel =>
        do reached := load_big_u64 key in
        if negb (reached =? expected) then Done (inl kStageBadChainSequence)
        else if negb (Nat.eqb (List.length value) 32) then Done (inl kStageBadBlockHash)
        else blockhashes_loop fuel header_data ((expected + 1) mod 2 ^ 64) (collected ++ [(value, key)]) (expected mod 2 ^ 32)
      end
    end.
  (** stage_blockhashes.cpp:33-115. The transaction is read-only (line 35), so putting anything into HeaderNumber throws. *)
  Definition stage_blockhashes (d : database) : out (stage_result * database) :=
    do last := get_stage_progress d kBlockHashesKey in
    let expected := (last + 1) mod 2 ^ 64 in
    do r := blockhashes_loop 3 (find (d kCanonicalHashes) (block_key expected)) expected [] 0 in
    match r with
    | inl res => Done (res, d)
    | inr ([], _) => Done (kStageSuccess, d)
    | inr (_ :: _, _) => Throws
    end.
End BlockHashes.

Section TxLookup.
  Variable keccak : bytes -> bytes.
  Variable pick : list (entry * nat) -> nat.   (* the heap of the collector: EtlModel *)

  (** stage_tx_lookup.cpp:33-39: leading zeros removed; all zeros: left as it is *)
  Fixpoint strip_zeros (b : bytes) : bytes := match b with x :: r => if x =? 0 then strip_zeros r else b | [] => [] end.
  Definition compact (b : bytes) : bytes := match strip_zeros b with [] => b | s => s end.
  (** stage_tx_lookup.cpp:75-84 *)
  Fixpoint lookup_entries (count : nat) (txs : table) (number : bytes) : list entry :=
    match count, txs with
    | S count, (_, v) :: r => (keccak v, number) :: lookup_entries count r number
    | _, _ => []
    end.
  (** stage_tx_lookup.cpp:63-93; a key shorter than 8 bytes is read beyond its end. *)
  Fixpoint extract_lookups (bodies txs : table) (block_number : N) : out (list entry * N) :=
    match bodies with
    | [] => Done ([], block_number)
    | (key, value) :: r =>
      do (body, _) := decode_stored value in
      do number := load_big_u64 key in
      let l := if sb_count body =? 0 then []
               else lookup_entries (N.to_nat (sb_count body)) (find txs (be_fixed 8 (sb_base body))) (compact (firstn 8 key)) in
      do (l', number) := extract_lookups r txs number in
      Done (l ++ l', number)
    end.
  (** stage_tx_lookup.cpp:41-128; the sum is of 64 bits; the collector of 512 MiB. *)
  Definition stage_tx_lookup (d : database) : out (stage_result * database) :=
    do last := get_stage_progress d kTxLookupKey in
    let start := be_fixed 8 ((last + 1) mod 2 ^ 64) in
    do (entries, block_number) := extract_lookups (find (d kBlockBodies) start) (d kEthTx) 0 in
    let c := fold_left collect entries (new_collector (512 * 2 ^ 20)) in
    if c_size c =? 0 then Done (kStageSuccess, d)
    else
      do (l, _) := load pick (List.length entries) c in
      do t := put_entries (match d kTxLookup with [] => MDBX_APPEND | _ => MDBX_UPSERT end) (d kTxLookup) l in
      do d := set_stage_progress (set_table d kTxLookup t) kTxLookupKey block_number in
      Done (kStageSuccess, d).
End TxLookup.

(** std::unordered_map<std::string, roaring::Roaring...>: find, emplace and add *)
Definition bitmaps : Type := list (bytes * bitmap).
Fixpoint bm_add (m : bitmaps) (k : bytes) (n : N) : bitmaps :=
  match m with
  | [] => [(k, {[n]})]
  | (k', b) :: r => if bytes_eqb k' k then (k', {[n]} ∪ b) :: r else (k', b) :: bm_add r k n
  end.

Section Bitmaps.
  Variable pick : list (entry * nat) -> nat.
  Variable walk : bitmaps -> bitmaps.          (* the order in which an unordered_map is walked *)
  Variable size_in_bytes : bitmap -> N.        (* CRoaring: getSizeInBytes, write, readSafe *)
  Variable bm_write : bitmap -> bytes.
  Variable bm_read : bytes -> bitmap.

  Definition kBitmapChunkLimit : N := 1950.    (* bitmap.hpp:32 *)

  (** stage_history_index.cpp:88-93, 103-108; stage_log_index.cpp:67-75 *)
  Definition flush_bitmaps (m : bitmaps) : list entry := map (fun e => (fst e, bm_write (snd e))) (walk m).

  (** stage_history_index.cpp:136-148 and stage_log_index.cpp:51-64: the chunks of a bitmap, each under the key with its largest
      element, the last one under the key with the largest integer of [width] bytes. *)
  Fixpoint put_chunks (fuel : nat) (width : nat) (flags : put_flags) (t : table) (key : bytes) (bm : bitmap) : out table :=
    if decide (bm = ∅) then Done t
    else match fuel with
         | O => Undefined
         | S fuel =>
           do (chunk, bm) := cut_left size_in_bytes bm kBitmapChunkLimit in
           let suffix := if decide (bm = ∅) then 2 ^ (8 * N.of_nat width) - 1 else match bm_maximum chunk with Some x => x | None => 0 end in
           do t := cursor_put flags t (key ++ be_fixed width suffix) (bm_write chunk) in
           put_chunks fuel width flags t key bm
         end.
  (** stage_history_index.cpp:124-149 (width 8) and stage_log_index.cpp:41-65 (width 4) *)
  Definition load_index (width : nat) (flags : put_flags) (t : table) (e : entry) : out table :=
    let bm := bm_read (snd e) in
    match lookup t (fst e ++ be_fixed width (2 ^ (8 * N.of_nat width) - 1)) with
    | Some previous => let bm := bm ∪ bm_read previous in put_chunks (S (size bm)) width MDBX_UPSERT t (fst e) bm
    | None => put_chunks (S (size bm)) width flags t (fst e) bm
    end.
  Fixpoint load_indexes (width : nat) (flags : put_flags) (t : table) (l : list entry) : out table :=
    match l with [] => Done t | e :: r => do t := load_index width flags t e in load_indexes width flags t r end.

  (** std::string(const char* ): up to the first zero, which is looked for beyond the end of the array *)
  Fixpoint c_string (b : bytes) : out bytes :=
    match b with [] => Undefined | x :: r => if x =? 0 then Done [] else do s := c_string r in Done (x :: s) end.
  (** stage_history_index.cpp:70-79 *)
  Definition composite_key (storage : bool) (key value : bytes) : out bytes :=
    if storage then
      if (List.length key <? 8)%nat then Throws
      else if (List.length key <? 28)%nat || (List.length value <? 32)%nat then Undefined
      else c_string (firstn 20 (skipn 8 key) ++ firstn 32 value)
    else if (List.length value <? 20)%nat then Undefined else Done (firstn 20 value).
  (** stage_history_index.cpp:69-99, 103-109: what is collected, and the last block; [m]: bitmaps, [space]: allocated_space *)
  Fixpoint extract_history (storage : bool) (p : table) (m : bitmaps) (space block_number : N) : out (list entry * N) :=
    match p with
    | [] => Done (flush_bitmaps m, block_number)
    | (key, value) :: r =>
      do k := composite_key storage key value in
      do n := load_big_u64 key in
      let m := bm_add m k n in
      let space := space + 8 in
      if 256 * 2 ^ 20 <? 64 * N.of_nat (List.length m) + space then
        do (l, n) := extract_history storage r [] 0 n in Done (flush_bitmaps m ++ l, n)
      else extract_history storage r m space n
    end.
  (** stage_history_index.cpp:40-163; seek is MDBX_SET: an exact match. *)
  Definition history_index_stage (storage : bool) (d : database) : out (stage_result * database) :=
    let changeset := if storage then kPlainStorageChangeSet else kPlainAccountChangeSet in
    let index := if storage then kStorageHistory else kAccountHistory in
    let stage_key := if storage then kStorageHistoryIndexKey else kAccountHistoryKey in
    do last := get_stage_progress d stage_key in
    do (entries, block_number) := extract_history storage (find (d changeset) (be_fixed 8 last)) [] 0 0 in
    let c := fold_left collect entries (new_collector (512 * 2 ^ 20)) in
    if c_size c =? 0 then Done (kStageSuccess, d)
    else
      do (l, _) := load pick (List.length entries) c in
      do t := load_indexes 8 (if last =? 0 then MDBX_APPEND else MDBX_UPSERT) (d index) l in
      do d := set_stage_progress (set_table d index t) stage_key block_number in
      Done (kStageSuccess, d).
  Definition stage_account_history := history_index_stage false.
  Definition stage_storage_history := history_index_stage true.

  Variable cbor_bytes : bytes -> list bytes.   (* cbor::decoder: the byte strings handed to on_bytes, in order *)
  (** listener_log_index.hpp:39-54: topics, addresses and the two counters; 32-bit bitmaps cut the number of the block. *)
  Definition on_bytes (n : N) (s : (bitmaps * N) * (bitmaps * N)) (data : bytes) : (bitmaps * N) * (bitmaps * N) :=
    let '((topics, tspace), (addrs, aspace)) := s in
    if Nat.eqb (List.length data) 32 then ((bm_add topics data (n mod 2 ^ 32), tspace + 32), (addrs, aspace))
    else if Nat.eqb (List.length data) 20 then ((topics, tspace), (bm_add addrs data (n mod 2 ^ 32), aspace + 20))
    else s.
  (** stage_log_index.cpp:112-122 *)
  Definition spill (s : bitmaps * N) : list entry * (bitmaps * N) :=
    if 512 * 2 ^ 20 <? snd s then (flush_bitmaps (fst s), ([], 0)) else ([], s).
  (** stage_log_index.cpp:106-131 *)
  Fixpoint extract_logs (p : table) (s : (bitmaps * N) * (bitmaps * N)) (block_number : N) : out (list entry * list entry * N) :=
    match p with
    | [] => Done (flush_bitmaps (fst (fst s)), flush_bitmaps (fst (snd s)), block_number)
    | (key, value) :: r =>
      do n := load_big_u64 key in
      let s := fold_left (on_bytes n) (cbor_bytes value) s in
      let (tl, ts) := spill (fst s) in
      let (al, as_) := spill (snd s) in
      do (l, n) := extract_logs r (ts, as_) n in
      Done (tl ++ fst l, al ++ snd l, n)
    end.
  (** stage_log_index.cpp:77-157; collectors of 256 MiB. *)
  Definition stage_log_index (d : database) : out (stage_result * database) :=
    do last := get_stage_progress d kLogIndexKey in
    do (entries, block_number) := extract_logs (find (d kLogs) (be_fixed 8 last)) (([], 0), ([], 0)) 0 in
    let flags := if last =? 0 then MDBX_APPEND else MDBX_UPSERT in
    do (tl, _) := load pick (List.length (fst entries)) (fold_left collect (fst entries) (new_collector (256 * 2 ^ 20))) in
    do t := load_indexes 4 flags (d kLogTopicIndex) tl in
    let d := set_table d kLogTopicIndex t in
    do (al, _) := load pick (List.length (snd entries)) (fold_left collect (snd entries) (new_collector (256 * 2 ^ 20))) in
    do t := load_indexes 4 flags (d kLogAddressIndex) al in
    do d := set_stage_progress (set_table d kLogAddressIndex t) kLogIndexKey block_number in
    Done (kStageSuccess, d).
End Bitmaps.
