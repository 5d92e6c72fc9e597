(** Model of db/silkworm/db/{util,stages,access_layer}.{hpp,cpp}: keys, stage progress, schema version, storage mode, blocks. *)
From Coq Require Import Strings.String Strings.Byte.
From Verif Require Import Base RlpModel TxModel BlockModel DbTable.

(** What a call does: it returns, throws, or is undefined behaviour (in a release build, without asserts). *)
Inductive out (A : Type) : Type := Done (a : A) | Throws | Undefined.
Arguments Done {A} a.
Arguments Throws {A}.
Arguments Undefined {A}.
Definition obind {A B} (x : out A) (f : A -> out B) : out B := match x with Done a => f a | Throws => Throws | Undefined => Undefined end.
Notation "'do' x := a 'in' b" := (obind a (fun x => b)) (at level 200, x pattern, a at level 100, b at level 200).
(** common/rlp_err.hpp: err_handler throws on a decoding error. *)
Definition err_handler {A} (r : res A) : out A := match r with Ok a => Done a | Err _ => Throws | UB => Undefined | NoFuel => Undefined end.

Definition str (s : string) : bytes := map Byte.to_N (list_byte_of_string s).

(** db/tables.hpp; [multi] are the tables declared with value_mode::multi. *)
Inductive tbl : Type :=
| kDatabaseInfo | kSyncStageProgress | kSyncStageUnwind | kCanonicalHashes | kHeaders | kDifficulty | kBlockBodies | kEthTx | kSenders
| kCode | kConfig | kPlainState | kPlainContractCode | kIncarnationMap | kPlainAccountChangeSet | kPlainStorageChangeSet
| kAccountHistory | kStorageHistory | kHashedAccounts | kHashedStorage | kContractCode | kLogs | kLogAddressIndex | kLogTopicIndex
| kTxLookup | kHeaderNumbers | kBlockReceipts | kTrieOfAccounts | kTrieOfStorage | kCallTraceSet | kMigrations.
Definition tbl_eq_dec (a b : tbl) : {a = b} + {a <> b}. Proof. decide equality. Defined.
Definition multi (t : tbl) : bool :=
  match t with kPlainState | kPlainAccountChangeSet | kPlainStorageChangeSet | kHashedStorage | kCallTraceSet => true | _ => false end.
Definition database : Type := tbl -> table.
Definition set_table (d : database) (t : tbl) (x : table) : database := fun t' => if tbl_eq_dec t t' then x else d t'.
Definition put (d : database) (t : tbl) (k v : bytes) : database := set_table d t (if multi t then put_dup (d t) k v else upsert (d t) k v).

(** ** Keys *)
(** util.cpp:32-37 *)
Definition storage_prefix (address : bytes) (incarnation : N) : bytes := address ++ be_fixed 8 incarnation.
(** util.cpp:39-43 *)
Definition block_key (block_number : N) : bytes := be_fixed 8 block_number.
(** util.cpp:45-50 *)
Definition block_key_hash (block_number : N) (hash : bytes) : bytes := be_fixed 8 block_number ++ hash.
(** util.cpp:52-58 *)
Definition storage_change_key (block_number : N) (address : bytes) (incarnation : N) : bytes := be_fixed 8 block_number ++ address ++ be_fixed 8 incarnation.
(** util.cpp:60-65 *)
Definition account_history_key (address : bytes) (block_number : N) : bytes := address ++ be_fixed 8 block_number.
(** util.cpp:67-73 *)
Definition storage_history_key (address location : bytes) (block_number : N) : bytes := address ++ location ++ be_fixed 8 block_number.
(** util.cpp:75-80 *)
Definition log_key (block_number transaction_id : N) : bytes := be_fixed 8 block_number ++ be_fixed 4 transaction_id.

(** mdbx::slice::starts_with *)
Fixpoint starts_with (v prefix : bytes) : bool :=
  match prefix, v with
  | [], _ => true
  | a :: p, b :: w => (a =? b) && starts_with w p
  | _ :: _, [] => false
  end.
(** util.cpp:82-92 *)
Definition find_value_suffix (t : table) (key value_prefix : bytes) : option bytes :=
  match lower_bound_multivalue t key value_prefix with
  | e :: _ => if starts_with (snd e) value_prefix then Some (skipn (List.length value_prefix) (snd e)) else None
  | [] => None
  end.

(** ** Stages (stages.cpp, stages.hpp:30-54) *)
Definition kAllStages : list bytes :=
  map str ["Headers"; "BlockHashes"; "Bodies"; "Senders"; "Execution"; "IntermediateHashes"; "HashState"; "AccountHistoryIndex";
           "StorageHistoryIndex"; "LogIndex"; "CallTraces"; "TxLookup"; "TxPool"; "Finish"]%string.
(** stages.cpp:75-84 *)
Definition is_known_stage (name : bytes) : bool := negb (Nat.eqb (List.length name) 0) && existsb (fun s => bytes_eqb s name) kAllStages.
(** stages.cpp:24-37 *)
Definition get_stage_data (d : database) (name : bytes) (domain : tbl) : out N :=
  if negb (is_known_stage name) then Throws
  else match lookup (d domain) name with
       | None => Done 0
       | Some v => if Nat.eqb (List.length v) 8 then Done (be_to_N v) else Throws
       end.
(** stages.cpp:39-51 *)
Definition set_stage_data (d : database) (name : bytes) (block_num : N) (domain : tbl) : out database :=
  if negb (is_known_stage name) then Throws else Done (put d domain name (be_fixed 8 block_num)).
(** stages.cpp:55-73 *)
Definition get_stage_progress d name := get_stage_data d name kSyncStageProgress.
Definition set_stage_progress d name n := set_stage_data d name n kSyncStageProgress.
Definition get_stage_unwind d name := get_stage_data d name kSyncStageUnwind.
Definition set_stage_unwind d name n := set_stage_data d name n kSyncStageUnwind.
Definition clear_stage_unwind d name := set_stage_data d name 0 kSyncStageUnwind.

(** ** Schema version (util.hpp:40-82, access_layer.cpp:29-65) *)
Record version := mkVersion { vMajor : N; vMinor : N; vPatch : N }.
Definition version_eqb (a b : version) : bool := (vMajor a =? vMajor b) && (vMinor a =? vMinor b) && (vPatch a =? vPatch b).
Definition version_ltb (a b : version) : bool :=
  if vMajor a <? vMajor b then true
  else if vMajor a =? vMajor b then
    if vMinor a <? vMinor b then true else if vMinor a =? vMinor b then vPatch a <? vPatch b else false
  else false.
Definition kDbSchemaVersionKey : bytes := str "dbVersion".
(** The length of 12 is only asserted (access_layer.cpp:37): reading a shorter value is undefined. *)
Definition get_schema_version (d : database) : out (option version) :=
  match lookup (d kDatabaseInfo) kDbSchemaVersionKey with
  | None => Done None
  | Some v => if (List.length v <? 12)%nat then Undefined
              else Done (Some (mkVersion (be_to_N (firstn 4 v)) (be_to_N (firstn 4 (skipn 4 v))) (be_to_N (firstn 4 (skipn 8 v)))))
  end.
Definition set_schema_version (d : database) (v : version) : out database :=
  do old := get_schema_version d in
  let write := Done (put d kDatabaseInfo kDbSchemaVersionKey (be_fixed 4 (vMajor v) ++ be_fixed 4 (vMinor v) ++ be_fixed 4 (vPatch v))) in
  match old with
  | Some o => if version_eqb v o then Done d else if version_ltb v o then Throws else write
  | None => write
  end.

(** ** Storage mode (util.hpp:84-124, access_layer.cpp:67-147) *)
Record storage_mode := mkMode { smInitialized : bool; smHistory : bool; smReceipts : bool; smTxIndex : bool; smCallTraces : bool; smTEVM : bool }.
Definition kDefaultStorageMode : storage_mode := mkMode true true true true true false.
Definition kStorageModeHistoryKey : bytes := str "smHistory".
Definition kStorageModeReceiptsKey : bytes := str "smReceipts".
Definition kStorageModeTxIndexKey : bytes := str "smTxIndex".
Definition kStorageModeCallTracesKey : bytes := str "smCallTraces".
Definition kStorageModeTEVMKey : bytes := str "smTEVM".
Definition mode_flag (d : database) (k : bytes) : bool :=
  match lookup (d kDatabaseInfo) k with Some [1] => true | _ => false end.
Definition get_storage_mode (d : database) : storage_mode :=
  mkMode true (mode_flag d kStorageModeHistoryKey) (mode_flag d kStorageModeReceiptsKey) (mode_flag d kStorageModeTxIndexKey)
         (mode_flag d kStorageModeCallTracesKey) (mode_flag d kStorageModeTEVMKey).
Definition mode_value (b : bool) : bytes := if b then [1] else [0; 0].
Definition set_storage_mode (d : database) (m : storage_mode) : database :=
  let d := put d kDatabaseInfo kStorageModeHistoryKey (mode_value (smHistory m)) in
  let d := put d kDatabaseInfo kStorageModeReceiptsKey (mode_value (smReceipts m)) in
  let d := put d kDatabaseInfo kStorageModeTxIndexKey (mode_value (smTxIndex m)) in
  let d := put d kDatabaseInfo kStorageModeCallTracesKey (mode_value (smCallTraces m)) in
  put d kDatabaseInfo kStorageModeTEVMKey (mode_value (smTEVM m)).
Definition read_storage_mode_receipts (d : database) : bool := mode_flag d kStorageModeReceiptsKey.
(** util.hpp:92-113 *)
Definition mode_to_string (m : storage_mode) : bytes :=
  if negb (smInitialized m) then str "default"
  else (if smHistory m then str "h" else []) ++ (if smReceipts m then str "r" else []) ++ (if smTxIndex m then str "t" else [])
       ++ (if smCallTraces m then str "c" else []) ++ (if smTEVM m then str "e" else []).
(** access_layer.cpp:120-147 *)
Fixpoint parse_flags (s : bytes) (m : storage_mode) : out storage_mode :=
  match s with
  | [] => Done m
  | c :: t =>
    if c =? 0x68 then parse_flags t (mkMode (smInitialized m) true (smReceipts m) (smTxIndex m) (smCallTraces m) (smTEVM m))
    else if c =? 0x72 then parse_flags t (mkMode (smInitialized m) (smHistory m) true (smTxIndex m) (smCallTraces m) (smTEVM m))
    else if c =? 0x74 then parse_flags t (mkMode (smInitialized m) (smHistory m) (smReceipts m) true (smCallTraces m) (smTEVM m))
    else if c =? 0x63 then parse_flags t (mkMode (smInitialized m) (smHistory m) (smReceipts m) (smTxIndex m) true (smTEVM m))
    else if c =? 0x65 then parse_flags t (mkMode (smInitialized m) (smHistory m) (smReceipts m) (smTxIndex m) (smCallTraces m) true)
    else Throws
  end.
Definition parse_storage_mode (s : bytes) : out storage_mode :=
  if bytes_eqb s (str "default") then Done kDefaultStorageMode else parse_flags s (mkMode true false false false false false).

(** ** Blocks *)
(** util.hpp: BlockBodyForStorage *)
Record stored_body := mkStored { sb_base : N; sb_count : N; sb_ommers : list block_header }.
(** util.cpp:95-107 *)
Definition encode_stored (b : stored_body) : bytes :=
  encode_header (mkHeader true (length_u64 (sb_base b) + length_u64 (sb_count b) + length_vector length_hdr (sb_ommers b)))
  ++ encode_u64 (sb_base b) ++ encode_u64 (sb_count b) ++ encode_vector length_hdr (fun h => encode_hdr h false) (sb_ommers b).
(** util.cpp:109-127; [leftover] wraps when the payload is longer than the view, which decode_header excludes. *)
Definition decode_stored (from : bytes) : out (stored_body * bytes) :=
  do (h, from) := err_handler (decode_header from) in
  if negb (h_list h) then Throws
  else
    let leftover := blen from - h_payload_length h in
    do (base, from) := err_handler (decode_u64 from) in
    do (count, from) := err_handler (decode_u64 from) in
    do (ommers, from) := err_handler (decode_vector decode_hdr from) in
    if blen from =? leftover then Done (mkStored base count ommers, from) else Throws.

(** access_layer.cpp:149-161 *)
Definition read_header (d : database) (n : N) (hash : bytes) : out (option block_header) :=
  match lookup (d kHeaders) (block_key_hash n hash) with
  | None => Done None
  | Some v => do (h, _) := err_handler (decode_hdr v) in Done (Some h)
  end.
(** access_layer.cpp:163-175 *)
Definition read_total_difficulty (d : database) (n : N) (hash : bytes) : out (option N) :=
  match lookup (d kDifficulty) (block_key_hash n hash) with
  | None => Done None
  | Some v => do (td, _) := err_handler (decode_u256 v) in Done (Some td)
  end.
(** access_layer.cpp:186-206; [count] bounds the loop, so it is the recursion argument. *)
Fixpoint read_txs (p : table) (count : nat) : out (list transaction) :=
  match count, p with
  | S c, e :: r => do (t, _) := err_handler (decode_tx (snd e)) in do ts := read_txs (to_next p) c in Done (t :: ts)
  | _, _ => Done []
  end.
Definition read_transactions (d : database) (base count : N) : out (list transaction) :=
  if count =? 0 then Done [] else read_txs (find (d kEthTx) (be_fixed 8 base)) (N.to_nat count).
(** access_layer.cpp:272-284; a length that is not a multiple of 20 is only asserted away: the copy would leave the vector. *)
Fixpoint addresses (n : nat) (v : bytes) : list bytes := match n with O => [] | S n' => firstn 20 v :: addresses n' (skipn 20 v) end.
Definition read_senders (d : database) (n : N) (hash : bytes) : out (list bytes) :=
  match lookup (d kSenders) (block_key_hash n hash) with
  | None => Done []
  | Some v => if Nat.eqb (List.length v mod 20) 0 then Done (addresses (List.length v / 20) v) else Undefined
  end.
Definition with_sender (t : transaction) (a : bytes) : transaction :=
  mkTx (tx_typ t) (tx_nonce t) (tx_max_priority_fee t) (tx_max_fee t) (tx_gas_limit t) (tx_to t) (tx_value t)
       (tx_data t) (tx_odd_y_parity t) (tx_chain_id t) (tx_r t) (tx_s t) (tx_access_list t) (Some a).
(** access_layer.cpp:244-270 *)
Definition read_body (d : database) (n : N) (hash : bytes) (senders : bool) : out (option block_body) :=
  match lookup (d kBlockBodies) (block_key_hash n hash) with
  | None => Done None
  | Some v =>
    do (b, _) := decode_stored v in
    do txs := read_transactions d (sb_base b) (sb_count b) in
    if senders then
      do ss := read_senders d n hash in
      if Nat.eqb (List.length ss) (List.length txs) then Done (Some (mkBody (map (fun p => with_sender (fst p) (snd p)) (combine txs ss)) (sb_ommers b)))
      else Throws
    else Done (Some (mkBody txs (sb_ommers b)))
  end.
(** access_layer.cpp:208-242; a canonical hash that is not 32 bytes long is only asserted away. *)
Definition read_block (d : database) (n : N) (senders : bool) : out (option (block * bytes)) :=
  match lookup (d kCanonicalHashes) (block_key n) with
  | None => Done None
  | Some hash =>
    if (List.length hash <? 32)%nat then Undefined
    else
      let hash := firstn 32 hash in
      do h := read_header d n hash in
      match h with
      | None => Done None
      | Some h =>
        do b := read_body d n hash senders in
        match b with
        | None => Done None
        | Some b => Done (Some (mkBlock h (bd_transactions b) (bd_ommers b), hash))
        end
      end
  end.
(** access_layer.cpp:286-294 *)
Definition read_code (d : database) (code_hash : bytes) : option bytes := lookup (d kCode) code_hash.
(** access_layer.cpp:481-486 *)
Definition migration_happened (d : database) (name : bytes) : bool := match find (d kMigrations) name with [] => false | _ => true end.
