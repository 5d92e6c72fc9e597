(** Model of core/silkworm/types/transaction.{hpp,cpp}: encoding and decoding. *)
From Verif Require Import Base RlpModel EcdsaModel.

(** types/transaction.hpp:31-34 (address: 20 bytes; storage keys: 32 bytes each). *)
Record access_entry := mkEntry { ale_account : bytes; ale_storage_keys : list bytes }.

(** types/transaction.hpp:41-45. Other uint8_t values of the enum are excluded: the encoder asserts
    them away (transaction.cpp:110, 166) and the decoder rejects them (transaction.cpp:351-353). *)
Inductive tx_type := kLegacy | kEip2930 | kEip1559.

Definition type_byte (t : tx_type) : N :=
  match t with kLegacy => 0 | kEip2930 => 1 | kEip1559 => 2 end.

Definition is_legacy (t : tx_type) : bool := match t with kLegacy => true | _ => false end.
Definition is_1559 (t : tx_type) : bool := match t with kEip1559 => true | _ => false end.

(** types/transaction.hpp:38-79 *)
Record transaction := mkTx {
  tx_typ : tx_type;
  tx_nonce : N;
  tx_max_priority_fee : N;
  tx_max_fee : N;
  tx_gas_limit : N;
  tx_to : option bytes;
  tx_value : N;
  tx_data : bytes;
  tx_odd_y_parity : bool;
  tx_chain_id : option N;
  tx_r : N;
  tx_s : N;
  tx_access_list : list access_entry;
  tx_from : option bytes
}.

(** types/transaction.cpp:43 *)
Definition tx_v (t : transaction) : N := y_parity_and_chain_id_to_v (tx_odd_y_parity t) (tx_chain_id t).

Definition value_or0 (o : option N) : N := match o with Some x => x | None => 0 end.
Definition bool_u64 (b : bool) : N := if b then 1 else 0.

(** ** Access list entries *)

(** types/transaction.cpp:54-58; a vector of evmc::bytes32 (rlp/encode.hpp:84, 95-102). *)
Definition entry_rlp_header (e : access_entry) : header :=
  mkHeader true (20 + 1 + length_vector (fun _ => length_bytes32) (ale_storage_keys e)).

(** types/transaction.cpp:60-63 *)
Definition length_entry (e : access_entry) : N :=
  length_of_length (h_payload_length (entry_rlp_header e)) + h_payload_length (entry_rlp_header e).

(** types/transaction.cpp:65-69 *)
Definition encode_entry (e : access_entry) : bytes :=
  encode_header (entry_rlp_header e) ++ encode_fixed (ale_account e)
  ++ encode_vector (fun _ => length_bytes32) encode_fixed (ale_storage_keys e).

(** types/transaction.cpp:71-90 *)
Definition decode_entry (from : bytes) : res (access_entry * bytes) :=
  let* '(h, from) := decode_header from in
  if negb (h_list h) then Err kUnexpectedString
  else
    let leftover := blen from - h_payload_length h in
    let* '(account, from) := decode_fixed 20 from in
    let* '(keys, from) := decode_vector (decode_fixed 32) from in
    if blen from =? leftover then Ok (mkEntry account keys, from) else Err kListLengthMismatch.

(** ** Transactions *)

(** types/transaction.cpp:92-127 *)
Definition tx_rlp_header (t : transaction) (for_signing : bool) : header :=
  let legacy := is_legacy (tx_typ t) in
  mkHeader true
   ((if legacy then 0 else length_u256 (value_or0 (tx_chain_id t)))
    + length_u64 (tx_nonce t)
    + (if is_1559 (tx_typ t) then length_u256 (tx_max_priority_fee t) else 0)
    + length_u256 (tx_max_fee t)
    + length_u64 (tx_gas_limit t)
    + (match tx_to t with Some _ => 20 + 1 | None => 1 end)
    + length_u256 (tx_value t)
    + length_bytes (tx_data t)
    + (if legacy then 0 else length_vector length_entry (tx_access_list t))
    + (if negb for_signing then
         (if legacy then length_u256 (tx_v t) else length_u64 (bool_u64 (tx_odd_y_parity t)))
         + length_u256 (tx_r t) + length_u256 (tx_s t)
       else if legacy then
         match tx_chain_id t with Some c => length_u256 c + 2 | None => 0 end
       else 0)).

Definition tx_rlp_len (t : transaction) (for_signing : bool) : N :=
  let h := tx_rlp_header t for_signing in
  length_of_length (h_payload_length h) + h_payload_length h.

(** types/transaction.cpp:129-138 *)
Definition length_tx (t : transaction) : N :=
  let rlp_len := tx_rlp_len t false in
  if is_legacy (tx_typ t) then rlp_len else length_of_length (rlp_len + 1) + rlp_len + 1.

(** types/transaction.cpp:146-150 and 187-191 *)
Definition encode_to (to : option bytes) : bytes :=
  match to with Some a => encode_fixed a | None => [0x80] end.

(** types/transaction.cpp:140-163 *)
Definition legacy_encode (t : transaction) (for_signing : bool) : bytes :=
  encode_header (tx_rlp_header t for_signing)
  ++ encode_u64 (tx_nonce t)
  ++ encode_u256 (tx_max_fee t)
  ++ encode_u64 (tx_gas_limit t)
  ++ encode_to (tx_to t)
  ++ encode_u256 (tx_value t)
  ++ encode_bytes (tx_data t)
  ++ (if negb for_signing then
        encode_u256 (tx_v t) ++ encode_u256 (tx_r t) ++ encode_u256 (tx_s t)
      else
        match tx_chain_id t with
        | Some c => encode_u256 c ++ encode_u64 0 ++ encode_u64 0
        | None => []
        end).

(** types/transaction.cpp:165-201 *)
Definition eip2718_encode (t : transaction) (for_signing wrap_into_array : bool) : bytes :=
  (if wrap_into_array then encode_header (mkHeader false (tx_rlp_len t for_signing + 1)) else [])
  ++ [type_byte (tx_typ t)]
  ++ encode_header (tx_rlp_header t for_signing)
  ++ encode_u256 (value_or0 (tx_chain_id t))
  ++ encode_u64 (tx_nonce t)
  ++ (if is_1559 (tx_typ t) then encode_u256 (tx_max_priority_fee t) else [])
  ++ encode_u256 (tx_max_fee t)
  ++ encode_u64 (tx_gas_limit t)
  ++ encode_to (tx_to t)
  ++ encode_u256 (tx_value t)
  ++ encode_bytes (tx_data t)
  ++ encode_vector length_entry encode_entry (tx_access_list t)
  ++ (if negb for_signing then
        encode_u64 (bool_u64 (tx_odd_y_parity t)) ++ encode_u256 (tx_r t) ++ encode_u256 (tx_s t)
      else []).

(** types/transaction.cpp:203-209 *)
Definition encode_tx_gen (t : transaction) (for_signing wrap_eip2718_into_array : bool) : bytes :=
  if is_legacy (tx_typ t) then legacy_encode t for_signing
  else eip2718_encode t for_signing wrap_eip2718_into_array.

(** types/transaction.cpp:211-213 *)
Definition encode_tx (t : transaction) : bytes := encode_tx_gen t false true.

(** types/transaction.cpp:229-237 and 296-304: [from[0]] is read without checking that the view is
    not empty. *)
Definition decode_to (from : bytes) : res (option bytes * bytes) :=
  let* b := at0 from in
  if b =? 0x80 then
    let* from := remove_prefix 1 from in Ok (None, from)
  else
    let* '(a, from) := decode_fixed 20 from in Ok (Some a, from).

(** types/transaction.cpp:215-260. [to0] is the object decoded into: its access list and sender are
    not assigned. *)
Definition legacy_decode (to0 : transaction) (from : bytes) : res (transaction * bytes) :=
  let* '(nonce, from) := decode_u64 from in
  let* '(fee, from) := decode_u256 from in
  let* '(gas_limit, from) := decode_u64 from in
  let* '(to, from) := decode_to from in
  let* '(value, from) := decode_u256 from in
  let* '(data, from) := decode_bytes from in
  let* '(v, from) := decode_u256 from in
  let '(odd, chain_id) := v_to_y_parity_and_chain_id v in
  let* '(r, from) := decode_u256 from in
  let* '(s, from) := decode_u256 from in
  Ok (mkTx kLegacy nonce fee fee gas_limit to value data odd chain_id r s
           (tx_access_list to0) (tx_from to0), from).

(** types/transaction.cpp:262-326. The payload length of the list header is not used afterwards. *)
Definition eip2718_decode (typ : tx_type) (to0 : transaction) (from : bytes) : res (transaction * bytes) :=
  let* '(h, from) := decode_header from in
  if negb (h_list h) then Err kUnexpectedString
  else
    let* '(chain_id, from) := decode_u256 from in
    let* '(nonce, from) := decode_u64 from in
    let* '(prio, from) := decode_u256 from in
    let* '(fee, from) := (if is_1559 typ then decode_u256 from else Ok (prio, from)) in
    let* '(gas_limit, from) := decode_u64 from in
    let* '(to, from) := decode_to from in
    let* '(value, from) := decode_u256 from in
    let* '(data, from) := decode_bytes from in
    let* '(al, from) := decode_vector decode_entry from in
    let* '(odd, from) := decode_bool from in
    let* '(r, from) := decode_u256 from in
    let* '(s, from) := decode_u256 from in
    Ok (mkTx typ nonce prio fee gas_limit to value data odd (Some chain_id) r s al (tx_from to0), from).

(** types/transaction.cpp:328-367 *)
Definition decode_tx_into (to0 : transaction) (from : bytes) : res (transaction * bytes) :=
  let* '(h, from) := decode_header from in
  if h_list h then
    let leftover := blen from - h_payload_length h in
    let* '(t, from) := legacy_decode to0 from in
    if blen from =? leftover then Ok (t, from) else Err kListLengthMismatch
  else if h_payload_length h =? 0 then Err kInputTooShort
  else
    let* b := at0 from in
    let* from := remove_prefix 1 from in
    let go (typ : tx_type) :=
      let eip2718_view := substr0 (h_payload_length h - 1) from in
      let* '(t, view) := eip2718_decode typ to0 eip2718_view in
      match view with
      | [] => let* from := remove_prefix (h_payload_length h - 1) from in Ok (t, from)
      | _ => Err kListLengthMismatch
      end in
    if b =? 1 then go kEip2930
    else if b =? 2 then go kEip1559
    else Err kUnsupportedTransactionType.

(** A default-constructed Transaction (types/transaction.hpp:47-63). *)
Definition tx_default : transaction :=
  mkTx kLegacy 0 0 0 0 None 0 [] false None 0 0 [] None.

(** Decoding into a fresh object, as rlp::decode_vector does (rlp/decode.hpp:116). *)
Definition decode_tx : bytes -> res (transaction * bytes) := decode_tx_into tx_default.

(** types/transaction.cpp:390-397. The assert (390) is a precondition. *)
Definition priority_fee_per_gas (t : transaction) (base_fee : N) : N :=
  N.min (tx_max_priority_fee t) (tx_max_fee t - base_fee).
Definition effective_gas_price (t : transaction) (base_fee : N) : N :=
  priority_fee_per_gas t base_fee + base_fee.
