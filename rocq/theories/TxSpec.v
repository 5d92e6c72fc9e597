(** Specification of transaction payloads: Yellow Paper eq. (16), EIP-155, EIP-2718, EIP-2930, EIP-1559.
    Written in terms of RLP items only. *)
From Verif Require Import Base RlpSpec TxModel.

Definition to_item (to : option bytes) : item := match to with Some a => Str a | None => Str [] end.

Definition access_item (e : access_entry) : item :=
  Lst [Str (ale_account e); Lst (map Str (ale_storage_keys e))].

(** EIP-155: v = {27,28} without replay protection, chain_id*2 + 35 + parity with it. *)
Definition spec_v (t : transaction) : N :=
  let p := if tx_odd_y_parity t then 1 else 0 in
  match tx_chain_id t with None => 27 + p | Some c => c * 2 + 35 + p end.

Definition spec_chain_id (t : transaction) : N := match tx_chain_id t with Some c => c | None => 0 end.

(** The unsigned fields of each transaction type. *)
Definition unsigned_fields (t : transaction) : list item :=
  match tx_typ t with
  | kLegacy => [Num (tx_nonce t); Num (tx_max_fee t); Num (tx_gas_limit t); to_item (tx_to t);
                Num (tx_value t); Str (tx_data t)]
  | kEip2930 => [Num (spec_chain_id t); Num (tx_nonce t); Num (tx_max_fee t); Num (tx_gas_limit t);
                 to_item (tx_to t); Num (tx_value t); Str (tx_data t); Lst (map access_item (tx_access_list t))]
  | kEip1559 => [Num (spec_chain_id t); Num (tx_nonce t); Num (tx_max_priority_fee t); Num (tx_max_fee t);
                 Num (tx_gas_limit t); to_item (tx_to t); Num (tx_value t); Str (tx_data t);
                 Lst (map access_item (tx_access_list t))]
  end.

Definition signature_fields (t : transaction) : list item :=
  match tx_typ t with
  | kLegacy => [Num (spec_v t); Num (tx_r t); Num (tx_s t)]
  | _ => [Num (if tx_odd_y_parity t then 1 else 0); Num (tx_r t); Num (tx_s t)]
  end.

(** What is signed: EIP-155 appends (chain_id, 0, 0) to legacy transactions with replay protection. *)
Definition signing_fields (t : transaction) : list item :=
  match tx_typ t, tx_chain_id t with
  | kLegacy, Some c => unsigned_fields t ++ [Num c; Num 0; Num 0]
  | _, _ => unsigned_fields t
  end.

Definition spec_signed_item (t : transaction) : item := Lst (unsigned_fields t ++ signature_fields t).
Definition spec_signing_item (t : transaction) : item := Lst (signing_fields t).

(** EIP-2718 envelope: legacy is plain RLP, typed is type byte || RLP. *)
Definition envelope (t : transaction) (x : item) : bytes :=
  match tx_typ t with
  | kLegacy => RLP x
  | kEip2930 => 1 :: RLP x
  | kEip1559 => 2 :: RLP x
  end.

(** In block bodies typed envelopes are wrapped into an RLP byte string. *)
Definition wire_tx (t : transaction) : bytes :=
  match tx_typ t with
  | kLegacy => RLP (spec_signed_item t)
  | _ => RLP (Str (envelope t (spec_signed_item t)))
  end.

(** Well-formedness: C++ field widths, and total size below 2^64 bytes. *)
Definition wf_entry (e : access_entry) : Prop :=
  blen (ale_account e) = 20 /\ wf_bytes (ale_account e) /\
  Forall (fun k => blen k = 32 /\ wf_bytes k) (ale_storage_keys e).

Definition wf_tx (t : transaction) : Prop :=
  u64 (tx_nonce t) /\ u256 (tx_max_priority_fee t) /\ u256 (tx_max_fee t) /\ u64 (tx_gas_limit t) /\
  match tx_to t with Some a => blen a = 20 /\ wf_bytes a | None => True end /\
  u256 (tx_value t) /\ wf_bytes (tx_data t) /\
  match tx_chain_id t with Some c => u256 c | None => True end /\
  u256 (tx_r t) /\ u256 (tx_s t) /\ Forall wf_entry (tx_access_list t).

(** The size of the encodings stays below 2^64 bytes (always true on a real machine). *)
Definition small_tx (t : transaction) : Prop := blen (envelope t (spec_signed_item t)) < 2 ^ 64.
Definition small_signing (t : transaction) : Prop := blen (envelope t (spec_signing_item t)) < 2 ^ 64.

(** The transactions that have a wire representation: legacy and EIP-2930 have a single gas price;
    legacy has no access list and its v must fit 256 bits; typed ones carry a chain id. *)
Definition representable (t : transaction) : Prop :=
  match tx_typ t with
  | kLegacy => tx_max_priority_fee t = tx_max_fee t /\ tx_access_list t = [] /\ spec_v t < 2 ^ 256
  | kEip2930 => tx_max_priority_fee t = tx_max_fee t /\ tx_chain_id t <> None
  | kEip1559 => tx_chain_id t <> None
  end.

(** Inputs that stop exactly where the recipient field should start. *)
Definition ends_before_to_legacy (b : bytes) : Prop :=
  exists nonce fee gas, u64 nonce /\ u256 fee /\ u64 gas /\ b = concat (map RLP [Num nonce; Num fee; Num gas]).

Definition ends_before_to_typed (typ : tx_type) (b : bytes) : Prop :=
  exists n l, n <= blen (concat (map RLP l)) /\ Forall (fun x => exists v, u256 v /\ x = Num v) l /\
   length l = (if is_1559 typ then 5%nat else 4%nat) /\ b = hdr 0xC0 0xF7 n ++ concat (map RLP l).

(** The exact inputs on which decoding reads past the end of the view. *)
Definition truncated_at_to (b : bytes) : Prop :=
  (exists n l, u64 n /\ ends_before_to_legacy l /\ n <= blen l /\ b = hdr 0xC0 0xF7 n ++ l) \/
  (exists typ q r, is_legacy typ = false /\ ends_before_to_typed typ q /\ b = RLP (Str (type_byte typ :: q)) ++ r).

(** The full encoding commits to every field (the sender cache is not part of the transaction). *)
Definition no_sender (t : transaction) : transaction :=
  mkTx (tx_typ t) (tx_nonce t) (tx_max_priority_fee t) (tx_max_fee t) (tx_gas_limit t) (tx_to t) (tx_value t)
       (tx_data t) (tx_odd_y_parity t) (tx_chain_id t) (tx_r t) (tx_s t) (tx_access_list t) None.

