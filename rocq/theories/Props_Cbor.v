(** C57: CBOR of logs and receipts; C54: what the listener of the log index makes of it. *)
From stdpp Require Import gmap.
From Verif Require Import Base TxModel TypesModel DbTable DbModel DbSpec DbCases BufferModel CborSpec CborModel CborLemmas IndexModel IndexProofs.

(** The encoding is well-formed CBOR, and the only item it can be read as is the list of the logs. *)
Theorem C57_logs : forall l, logs_fit l -> exists b, cbor_encode_logs l = Done b /\ stands_for b (logs_cbor l).
Proof. exact logs_ok. Qed.
Print Assumptions C57_logs.
Theorem C57_logs_recovered : forall l l', logs_fit l -> logs_fit l' -> cbor_encode_logs l = cbor_encode_logs l' -> l = l'.
Proof. exact logs_injective. Qed.
Print Assumptions C57_logs_recovered.
Theorem C57_receipts : forall l, receipts_fit l -> exists b, cbor_encode_receipts l = Done b /\ stands_for b (receipts_cbor l).
Proof. exact receipts_ok. Qed.
Print Assumptions C57_receipts.
(** Type, status and cumulative gas are recovered: blooms and logs are not part of the encoding. *)
Theorem C57_receipts_recovered : forall l l', receipts_fit l -> receipts_fit l' -> cbor_encode_receipts l = cbor_encode_receipts l' -> map kept l = map kept l'.
Proof. exact receipts_injective. Qed.
Print Assumptions C57_receipts_recovered.

(** After the receipts of a block were inserted and the buffer was written, the database holds the receipts under the block and the
    logs of each transaction under block and transaction; transactions without logs change nothing. *)
Theorem C57_stored : forall b n rs d, n < 2 ^ 64 -> receipts_fit rs -> Forall (fun r => logs_fit (rc_logs r)) rs -> numbers_fit b -> wf_db d -> exists b', insert_receipts b n rs = Done b'
  /\ (exists v, lookup (buf_write_to_db b' d kBlockReceipts) (block_key n) = Some v /\ stands_for v (receipts_cbor rs))
  /\ (forall j r, rs !! j = Some r -> rc_logs r <> [] -> exists v, lookup (buf_write_to_db b' d kLogs) (log_key n (N.of_nat j)) = Some v /\ stands_for v (logs_cbor (rc_logs r)))
  /\ (forall j, (forall r, rs !! j = Some r -> rc_logs r = []) -> N.of_nat j < 2 ^ 32 -> b_logs b !! (n, N.of_nat j) = None -> lookup (buf_write_to_db b' d kLogs) (log_key n (N.of_nat j)) = lookup (d kLogs) (log_key n (N.of_nat j)))
  /\ numbers_fit b'.
Proof. exact inserted. Qed.
Print Assumptions C57_stored.
Example C57_case : receipts_fit case_receipts /\ Forall (fun r => logs_fit (rc_logs r)) case_receipts /\ numbers_fit buf_empty /\ wf_db sample_db.
Proof. exact case_fits. Qed.
Example C57_case_bytes : cbor_encode_receipts case_receipts = Done [0x82; 0x84; 0; 0xf6; 1; 0x19; 0x52; 0x08; 0x84; 2; 0xf6; 0; 0x1b; 0; 0; 1; 0; 0; 0; 0; 0].
Proof. exact case_receipts_bytes. Qed.

(** The listener, handed the byte strings of the logs of a block, takes every string of 32 bytes for a topic and every one of 20 for
    an address; so data of that length is indexed as well. *)
Theorem C54_log_listener : forall n l, exists topics ts addrs as_, fold_left (on_bytes n) (strings (logs_cbor l)) (([], 0), ([], 0)) = ((topics, ts), (addrs, as_))
  /\ (forall k m, in_maps topics k m <-> m = n mod 2 ^ 32 /\ length k = 32%nat /\ exists x, In x l /\ (k = log_address x \/ In k (log_topics x) \/ k = log_data x))
  /\ (forall k m, in_maps addrs k m <-> m = n mod 2 ^ 32 /\ length k = 20%nat /\ exists x, In x l /\ (k = log_address x \/ In k (log_topics x) \/ k = log_data x)).
Proof. exact log_listener. Qed.
Print Assumptions C54_log_listener.
Theorem C54_log_data_refuted : forall n l x, In x l -> length (log_data x) = 20%nat -> (forall y, In y l -> log_data x <> log_address y) ->
  exists topics ts addrs as_, fold_left (on_bytes n) (strings (logs_cbor l)) (([], 0), ([], 0)) = ((topics, ts), (addrs, as_)) /\ in_maps addrs (log_data x) (n mod 2 ^ 32).
Proof. exact data_indexed. Qed.
Print Assumptions C54_log_data_refuted.
Example C54_log_data_case : In tricky [tricky] /\ length (log_data tricky) = 20%nat /\ forall y, In y [tricky] -> log_data tricky <> log_address y.
Proof. exact tricky_case. Qed.
