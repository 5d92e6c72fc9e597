(** Specification of block headers and bodies: Yellow Paper (4.3), EIP-1559. *)
From Verif Require Import Base RlpSpec TxModel TxSpec BlockModel.

Definition seal_fields (h : block_header) : list item := [Str (hd_mix_hash h); Str (hd_nonce h)].

Definition header_fields (h : block_header) (sealed : bool) : list item :=
  [Str (hd_parent_hash h); Str (hd_ommers_hash h); Str (hd_beneficiary h); Str (hd_state_root h);
   Str (hd_transactions_root h); Str (hd_receipts_root h); Str (hd_logs_bloom h);
   Num (hd_difficulty h); Num (hd_number h); Num (hd_gas_limit h); Num (hd_gas_used h); Num (hd_timestamp h);
   Str (hd_extra_data h)]
  ++ (if sealed then seal_fields h else [])
  ++ match hd_base_fee h with Some f => [Num f] | None => [] end.

(** The item whose keccak hash identifies the block (sealed), and the one the seal is computed over. *)
Definition header_item (h : block_header) : item := Lst (header_fields h true).
Definition unsealed_item (h : block_header) : item := Lst (header_fields h false).

Definition wf_header (h : block_header) : Prop :=
  (blen (hd_parent_hash h) = 32 /\ wf_bytes (hd_parent_hash h)) /\
  (blen (hd_ommers_hash h) = 32 /\ wf_bytes (hd_ommers_hash h)) /\
  (blen (hd_beneficiary h) = 20 /\ wf_bytes (hd_beneficiary h)) /\
  (blen (hd_state_root h) = 32 /\ wf_bytes (hd_state_root h)) /\
  (blen (hd_transactions_root h) = 32 /\ wf_bytes (hd_transactions_root h)) /\
  (blen (hd_receipts_root h) = 32 /\ wf_bytes (hd_receipts_root h)) /\
  (blen (hd_logs_bloom h) = 256 /\ wf_bytes (hd_logs_bloom h)) /\
  u256 (hd_difficulty h) /\ u64 (hd_number h) /\ u64 (hd_gas_limit h) /\ u64 (hd_gas_used h) /\
  u64 (hd_timestamp h) /\ wf_bytes (hd_extra_data h) /\
  (blen (hd_mix_hash h) = 32 /\ wf_bytes (hd_mix_hash h)) /\
  (blen (hd_nonce h) = 8 /\ wf_bytes (hd_nonce h)) /\
  match hd_base_fee h with Some f => u256 f | None => True end.

(** A block body: the list of transactions (typed ones wrapped into byte strings) and the list of ommers. *)
Definition tx_item (t : transaction) : item :=
  match tx_typ t with kLegacy => spec_signed_item t | _ => Str (envelope t (spec_signed_item t)) end.

Definition body_item (b : block_body) : item :=
  Lst [Lst (map tx_item (bd_transactions b)); Lst (map header_item (bd_ommers b))].

Definition block_item (b : block) : item :=
  Lst [header_item (bk_header b); Lst (map tx_item (bk_transactions b)); Lst (map header_item (bk_ommers b))].

Definition small_item (x : item) : Prop := blen (RLP x) < 2 ^ 64.

(** The accepted wire forms of a transaction inside a body. *)
Definition tx_form (t : transaction) (e : bytes) : Prop :=
  wf_tx t /\ tx_from t = None /\
  match tx_typ t with
  | kLegacy => e = encode_tx t
  | typ => exists n, n <= blen (concat (map RLP (unsigned_fields t ++ signature_fields t))) /\
      e = RLP (Str (type_byte typ :: hdr 0xC0 0xF7 n ++ concat (map RLP (unsigned_fields t ++ signature_fields t))))
  end.

Definition wf_body (b : block_body) : Prop :=
  Forall (fun t => wf_tx t /\ representable t) (bd_transactions b) /\ Forall wf_header (bd_ommers b).

Definition wf_block (b : block) : Prop :=
  wf_header (bk_header b) /\ Forall (fun t => wf_tx t /\ representable t) (bk_transactions b) /\ Forall wf_header (bk_ommers b).

(** [q] is a contiguous part of [b]. *)
Definition sub_view (q b : bytes) : Prop := exists p r, b = p ++ q ++ r.

