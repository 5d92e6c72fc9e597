(** Database keys, stage progress, schema version, storage mode, stored blocks: C42-C45. *)
From Verif Require Import Base BaseFacts RlpSpec RlpModel TxModel TxSpec BlockModel BlockSpec CodecLemmas DbTable DbModel DbSpec DbProofs DbBlockProofs DbCases.

(** *** C42: the byte order of the keys is the order of what they encode. [lex_lt] is the order of the store. *)
Theorem C42_block_keys : forall a b h g, a < 2 ^ 64 -> b < 2 ^ 64 ->
  (lex_lt (block_key a) (block_key b) = true <-> a < b)
  /\ (lex_lt (block_key_hash a h) (block_key_hash b g) = true <-> a < b \/ (a = b /\ lex_lt h g = true)).
Proof. exact (fun a b h g Ha Hb => conj (block_key_lt a b Ha Hb) (block_key_hash_lt a b h g Ha Hb)). Qed.
Print Assumptions C42_block_keys.
Theorem C42_storage_prefix : forall a b i j, length a = length b -> i < 2 ^ 64 -> j < 2 ^ 64 ->
  lex_lt (storage_prefix a i) (storage_prefix b j) = true <-> lex_lt a b = true \/ (a = b /\ i < j).
Proof. exact storage_prefix_lt. Qed.
Print Assumptions C42_storage_prefix.
Theorem C42_storage_change_key : forall n m a b i j, n < 2 ^ 64 -> m < 2 ^ 64 -> length a = length b -> i < 2 ^ 64 -> j < 2 ^ 64 ->
  lex_lt (storage_change_key n a i) (storage_change_key m b j) = true <-> n < m \/ (n = m /\ (lex_lt a b = true \/ (a = b /\ i < j))).
Proof. exact storage_change_key_lt. Qed.
Print Assumptions C42_storage_change_key.
Theorem C42_history_keys : forall a b x y n m, length a = length b -> length x = length y -> n < 2 ^ 64 -> m < 2 ^ 64 ->
  (lex_lt (account_history_key a n) (account_history_key b m) = true <-> lex_lt a b = true \/ (a = b /\ n < m))
  /\ (lex_lt (storage_history_key a x n) (storage_history_key b y m) = true <-> lex_lt a b = true \/ (a = b /\ (lex_lt x y = true \/ (x = y /\ n < m)))).
Proof. exact (fun a b x y n m L L2 Hn Hm => conj (account_history_key_lt a b n m L Hn Hm) (storage_history_key_lt a b x y n m L L2 Hn Hm)). Qed.
Print Assumptions C42_history_keys.
Theorem C42_log_key : forall n m i j, n < 2 ^ 64 -> m < 2 ^ 64 -> i < 2 ^ 32 -> j < 2 ^ 32 ->
  lex_lt (log_key n i) (log_key m j) = true <-> n < m \/ (n = m /\ i < j).
Proof. exact log_key_lt. Qed.
Print Assumptions C42_log_key.
Theorem C42_injective :
  (forall a b, a < 2 ^ 64 -> b < 2 ^ 64 -> block_key a = block_key b -> a = b)
  /\ (forall a b h g, a < 2 ^ 64 -> b < 2 ^ 64 -> block_key_hash a h = block_key_hash b g -> a = b /\ h = g)
  /\ (forall a b i j, length a = length b -> i < 2 ^ 64 -> j < 2 ^ 64 -> storage_prefix a i = storage_prefix b j -> a = b /\ i = j)
  /\ (forall n m a b i j, n < 2 ^ 64 -> m < 2 ^ 64 -> length a = length b -> i < 2 ^ 64 -> j < 2 ^ 64 -> storage_change_key n a i = storage_change_key m b j -> n = m /\ a = b /\ i = j)
  /\ (forall a b n m, length a = length b -> n < 2 ^ 64 -> m < 2 ^ 64 -> account_history_key a n = account_history_key b m -> a = b /\ n = m)
  /\ (forall a b x y n m, length a = length b -> length x = length y -> n < 2 ^ 64 -> m < 2 ^ 64 -> storage_history_key a x n = storage_history_key b y m -> a = b /\ x = y /\ n = m)
  /\ (forall n m i j, n < 2 ^ 64 -> m < 2 ^ 64 -> i < 2 ^ 32 -> j < 2 ^ 32 -> log_key n i = log_key m j -> n = m /\ i = j).
Proof. exact keys_injective. Qed.
Print Assumptions C42_injective.
(** A scan by block prefix meets exactly the records of the block. *)
Theorem C42_block_scan : forall n m a i, n < 2 ^ 64 -> m < 2 ^ 64 -> starts_with (storage_change_key n a i) (block_key m) = true <-> n = m.
Proof. exact block_scan. Qed.
Print Assumptions C42_block_scan.
(** find_value_suffix returns what follows the prefix in the least value with that prefix. *)
Theorem C42_find_value_suffix : forall t k p s, dup_ordered t ->
  find_value_suffix t k p = Some s <-> In (k, p ++ s) t /\ (forall s', In (k, p ++ s') t -> s' = s \/ lex_lt s s' = true).
Proof. exact find_value_suffix_spec. Qed.
Print Assumptions C42_find_value_suffix.
Example C42_witness : lex_lt (block_key 255) (block_key 256) = true /\ lex_lt (storage_prefix (repeat 1 20) 300) (storage_prefix (repeat 1 20) 5) = false
  /\ storage_history_key (repeat 1 20) (repeat 2 32) 258 = repeat 1 20 ++ repeat 2 32 ++ [0; 0; 0; 0; 0; 0; 1; 2].
Proof. repeat split. Qed.

(** *** C43: stage progress over every history. *)
Theorem C43_history : forall ops d, wf_db d -> Forall (fun o => In (op_name o) kAllStages /\ op_fits o) ops ->
  exists d', stage_run d ops = Done d' /\ wf_db d'
    /\ (forall t, t <> kSyncStageProgress -> t <> kSyncStageUnwind -> d' t = d t)
    /\ (forall s p, get_stage_progress d s = Done p -> get_stage_progress d' s = Done (last_progress ops s p))
    /\ (forall s u, get_stage_unwind d s = Done u -> get_stage_unwind d' s = Done (last_unwind ops s u)).
Proof. exact stage_history'. Qed.
Print Assumptions C43_history.
Theorem C43_fresh : forall d s, In s kAllStages -> d kSyncStageProgress = [] -> d kSyncStageUnwind = [] -> get_stage_progress d s = Done 0 /\ get_stage_unwind d s = Done 0.
Proof. exact stage_fresh'. Qed.
Print Assumptions C43_fresh.
Theorem C43_unknown : forall d s n, ~ In s kAllStages ->
  get_stage_progress d s = Throws /\ set_stage_progress d s n = Throws /\ get_stage_unwind d s = Throws /\ set_stage_unwind d s n = Throws /\ clear_stage_unwind d s = Throws.
Proof. exact stage_unknown'. Qed.
Print Assumptions C43_unknown.
Example C43_witness : wf_db empty_db /\ Forall (fun o => In (op_name o) kAllStages /\ op_fits o) sample_ops
  /\ last_progress sample_ops stage_Execution 0 = 6 /\ last_progress sample_ops stage_Headers 0 = 9 /\ last_unwind sample_ops stage_Execution 0 = 3.
Proof. exact (conj empty_wf sample_ops_ok). Qed.

(** *** C44: schema version and storage mode. *)
Theorem C44_schema_version : forall d o v, wf_db d -> get_schema_version d = Done o -> version_fits v ->
  match set_schema_version d v with
  | Done d' => wf_db d' /\ get_schema_version d' = Done (Some v) /\ (forall w, o = Some w -> w = v \/ version_lt w v)
               /\ (forall t, t <> kDatabaseInfo -> d' t = d t) /\ (forall k, k <> kDbSchemaVersionKey -> lookup (d' kDatabaseInfo) k = lookup (d kDatabaseInfo) k)
  | Throws => exists w, o = Some w /\ version_lt v w
  | Undefined => False
  end.
Proof. exact schema_step. Qed.
Print Assumptions C44_schema_version.
Theorem C44_storage_mode : forall d m, wf_db d -> get_storage_mode (set_storage_mode d m) = initialized m /\ get_schema_version (set_storage_mode d m) = get_schema_version d
  /\ wf_db (set_storage_mode d m) /\ (forall t, t <> kDatabaseInfo -> set_storage_mode d m t = d t) /\ read_storage_mode_receipts (set_storage_mode d m) = smReceipts m.
Proof. exact mode_written. Qed.
Print Assumptions C44_storage_mode.
Theorem C44_mode_strings : forall m, parse_storage_mode (mode_to_string m) = Done (if smInitialized m then m else kDefaultStorageMode).
Proof. exact mode_parse. Qed.
Print Assumptions C44_mode_strings.
(** Parsing reads any other string as a set of the letters h, r, t, c, e, and throws on any other letter. *)
Theorem C44_mode_parsing : forall s, s <> [100; 101; 102; 97; 117; 108; 116] -> parse_storage_mode s =
  if forallb (fun c => existsb (N.eqb c) [0x68; 0x72; 0x74; 0x63; 0x65]) s
  then Done (mkMode true (existsb (N.eqb 0x68) s) (existsb (N.eqb 0x72) s) (existsb (N.eqb 0x74) s) (existsb (N.eqb 0x63) s) (existsb (N.eqb 0x65) s))
  else Throws.
Proof. exact parse_general. Qed.
Print Assumptions C44_mode_parsing.
Example C44_witness : get_schema_version empty_db = Done None /\ version_fits (mkVersion 3 0 (2 ^ 32 - 1)) /\ version_lt (mkVersion 2 9 9) (mkVersion 3 0 0)
  /\ parse_storage_mode [0x74; 0x68] = Done (mkMode true true false true false false).
Proof. repeat split; reflexivity || (left; reflexivity). Qed.

(** *** C45: stored bodies and blocks. *)
Theorem C45_body_record : forall b r, wf_stored b -> encode_stored b = RLP (stored_item b) /\ decode_stored (encode_stored b ++ r) = Done (b, r).
Proof. exact stored_rt. Qed.
Print Assumptions C45_body_record.
(** When the records base .. base+count-1 are there, exactly those are returned. *)
Theorem C45_transactions : forall d base txs, wf_db d -> keys8 (d kEthTx) -> Forall (fun t => wf_tx t /\ representable t /\ small_tx t) txs ->
  base + N.of_nat (List.length txs) < 2 ^ 64 ->
  (forall i x, nth_error txs i = Some x -> lookup (d kEthTx) (be_fixed 8 (base + N.of_nat i)) = Some (wire_tx x)) ->
  read_transactions d base (N.of_nat (List.length txs)) = Done (map no_sender txs).
Proof. exact read_transactions_spec. Qed.
Print Assumptions C45_transactions.
Theorem C45_read_block : forall d n hash b base senders with_senders, wf_db d -> keys8 (d kEthTx) -> holds_block d n hash b base senders -> wf_holding b base senders ->
  read_block d n with_senders =
    (if with_senders then if Nat.eqb (List.length senders) (List.length (bk_transactions b))
                          then Done (Some (mkBlock (bk_header b) (map (fun p => sent_by (fst p) (snd p)) (combine (bk_transactions b) senders)) (bk_ommers b), hash)) else Throws
     else Done (Some (mkBlock (bk_header b) (map no_sender (bk_transactions b)) (bk_ommers b), hash))).
Proof. exact read_block_spec. Qed.
Print Assumptions C45_read_block.
Theorem C45_absent : forall d n with_senders, lookup (d kCanonicalHashes) (be_fixed 8 n) = None -> read_block d n with_senders = Done None.
Proof. exact read_block_absent. Qed.
Print Assumptions C45_absent.
(** With a gap in the ids the transaction of another id is returned, and when the first id is missing, none: neither is an error. *)
Theorem C45_gap_refuted : (wf_db gap_db /\ keys8 (gap_db kEthTx))
  /\ lookup (gap_db kEthTx) (be_fixed 8 6) = None /\ read_transactions gap_db 5 2 = Done [no_sender sample_tx; no_sender sample_legacy_tx] /\ read_transactions gap_db 4 2 = Done [].
Proof. exact (conj gap_wf gap_reads). Qed.
Print Assumptions C45_gap_refuted.
Example C45_witness : (wf_db sample_db /\ keys8 (sample_db kEthTx)) /\ holds_block sample_db 1 sample_hash sample_block 5 [sample_sender; sample_sender]
  /\ wf_holding sample_block 5 [sample_sender; sample_sender].
Proof. exact (conj sample_db_wf (conj sample_holds sample_holding)). Qed.
