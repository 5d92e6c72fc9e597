(** Model of the RLP codec of core/silkworm/types/block.{hpp,cpp}. *)
From Verif Require Import Base RlpModel TxModel.

(** types/block.hpp:35-60 *)
Record block_header := mkHdr {
  hd_parent_hash : bytes;
  hd_ommers_hash : bytes;
  hd_beneficiary : bytes;
  hd_state_root : bytes;
  hd_transactions_root : bytes;
  hd_receipts_root : bytes;
  hd_logs_bloom : bytes;
  hd_difficulty : N;
  hd_number : N;
  hd_gas_limit : N;
  hd_gas_used : N;
  hd_timestamp : N;
  hd_extra_data : bytes;
  hd_mix_hash : bytes;
  hd_nonce : bytes;
  hd_base_fee : option N
}.

(** types/block.hpp:66-69 *)
Record block_body := mkBody { bd_transactions : list transaction; bd_ommers : list block_header }.

(** types/block.hpp:75-79 *)
Record block := mkBlock { bk_header : block_header; bk_transactions : list transaction; bk_ommers : list block_header }.

(** types/block.cpp:54-77; kHashLength = 32, kAddressLength = 20, kBloomByteLength = 256. *)
Definition hdr_rlp_header (h : block_header) (for_sealing : bool) : header :=
  mkHeader true
    ((32 + 1) + (32 + 1) + (20 + 1) + (32 + 1) + (32 + 1) + (32 + 1)
     + (256 + length_of_length 256)
     + length_u256 (hd_difficulty h)
     + length_u64 (hd_number h)
     + length_u64 (hd_gas_limit h)
     + length_u64 (hd_gas_used h)
     + length_u64 (hd_timestamp h)
     + length_bytes (hd_extra_data h)
     + (if negb for_sealing then (32 + 1) + (8 + 1) else 0)
     + match hd_base_fee h with Some f => length_u256 f | None => 0 end).

(** types/block.cpp:79-82 *)
Definition length_hdr (h : block_header) : N :=
  let n := h_payload_length (hdr_rlp_header h false) in length_of_length n + n.

(** types/block.cpp:84-106 *)
Definition encode_hdr (h : block_header) (for_sealing : bool) : bytes :=
  encode_header (hdr_rlp_header h for_sealing)
  ++ encode_fixed (hd_parent_hash h)
  ++ encode_fixed (hd_ommers_hash h)
  ++ encode_fixed (hd_beneficiary h)
  ++ encode_fixed (hd_state_root h)
  ++ encode_fixed (hd_transactions_root h)
  ++ encode_fixed (hd_receipts_root h)
  ++ encode_bytes (hd_logs_bloom h)
  ++ encode_u256 (hd_difficulty h)
  ++ encode_u64 (hd_number h)
  ++ encode_u64 (hd_gas_limit h)
  ++ encode_u64 (hd_gas_used h)
  ++ encode_u64 (hd_timestamp h)
  ++ encode_bytes (hd_extra_data h)
  ++ (if negb for_sealing then encode_fixed (hd_mix_hash h) ++ encode_fixed (hd_nonce h) else [])
  ++ match hd_base_fee h with Some f => encode_u256 f | None => [] end.

(** types/block.cpp:108-175 *)
Definition decode_hdr (from : bytes) : res (block_header * bytes) :=
  let* '(h, from) := decode_header from in
  if negb (h_list h) then Err kUnexpectedString
  else
    let leftover := blen from - h_payload_length h in
    let* '(parent_hash, from) := decode_fixed 32 from in
    let* '(ommers_hash, from) := decode_fixed 32 from in
    let* '(beneficiary, from) := decode_fixed 20 from in
    let* '(state_root, from) := decode_fixed 32 from in
    let* '(transactions_root, from) := decode_fixed 32 from in
    let* '(receipts_root, from) := decode_fixed 32 from in
    let* '(logs_bloom, from) := decode_fixed 256 from in
    let* '(difficulty, from) := decode_u256 from in
    let* '(number, from) := decode_u64 from in
    let* '(gas_limit, from) := decode_u64 from in
    let* '(gas_used, from) := decode_u64 from in
    let* '(timestamp, from) := decode_u64 from in
    let* '(extra_data, from) := decode_bytes from in
    let* '(mix_hash, from) := decode_fixed 32 from in
    let* '(nonce, from) := decode_fixed 8 from in
    let* '(base_fee, from) :=
       (if leftover <? blen from then let* '(f, from) := decode_u256 from in Ok (Some f, from)
        else Ok (None, from)) in
    if blen from =? leftover then
      Ok (mkHdr parent_hash ommers_hash beneficiary state_root transactions_root receipts_root logs_bloom
                difficulty number gas_limit gas_used timestamp extra_data mix_hash nonce base_fee, from)
    else Err kListLengthMismatch.

(** types/block.cpp:177-184; encode(Bytes&, const BlockHeader&) has for_sealing = false by default. *)
Definition encode_body (b : block_body) : bytes :=
  encode_header (mkHeader true (length_vector length_tx (bd_transactions b) + length_vector length_hdr (bd_ommers b)))
  ++ encode_vector length_tx encode_tx (bd_transactions b)
  ++ encode_vector length_hdr (fun h => encode_hdr h false) (bd_ommers b).

(** types/block.cpp:186-205 *)
Definition decode_body (from : bytes) : res (block_body * bytes) :=
  let* '(h, from) := decode_header from in
  if negb (h_list h) then Err kUnexpectedString
  else
    let leftover := blen from - h_payload_length h in
    let* '(txs, from) := decode_vector decode_tx from in
    let* '(ommers, from) := decode_vector decode_hdr from in
    if blen from =? leftover then Ok (mkBody txs ommers, from) else Err kListLengthMismatch.

(** types/block.cpp:207-229 *)
Definition decode_block (from : bytes) : res (block * bytes) :=
  let* '(h, from) := decode_header from in
  if negb (h_list h) then Err kUnexpectedString
  else
    let leftover := blen from - h_payload_length h in
    let* '(hd, from) := decode_hdr from in
    let* '(txs, from) := decode_vector decode_tx from in
    let* '(ommers, from) := decode_vector decode_hdr from in
    if blen from =? leftover then Ok (mkBlock hd txs ommers, from) else Err kListLengthMismatch.
