(** Model of core/silkworm/types/{account,log,receipt,bloom}.{hpp,cpp}. *)
From Verif Require Import Base RlpModel TxModel.

(** common/base.hpp:46 *)
Definition kEmptyHash : bytes :=
  be_fixed 32 0xc5d2460186f7233c927e7db2dcc703c0e500b653ca82273b7bfad8045d85a470.

(** types/account.hpp:32-46 *)
Record account := mkAccount { a_nonce : N; a_balance : N; a_code_hash : bytes; a_incarnation : N }.
Definition account_default : account := mkAccount 0 0 kEmptyHash 0.

(** One optional field of types/account.cpp:31-52: length byte followed by the bytes. *)
Definition sized (be : bytes) : bytes := (blen be mod 256) :: be.

(** types/account.cpp:27-60 *)
Definition encode_for_storage (a : account) (omit_code_hash : bool) : bytes :=
  let code := negb (bytes_eqb (a_code_hash a) kEmptyHash) && negb omit_code_hash in
  let field_set :=
    (if negb (a_nonce a =? 0) then 1 else 0) + (if negb (a_balance a =? 0) then 2 else 0)
    + (if negb (a_incarnation a =? 0) then 4 else 0) + (if code then 8 else 0) in
  field_set
  :: (if negb (a_nonce a =? 0) then sized (big_endian64 (a_nonce a)) else [])
  ++ (if negb (a_balance a =? 0) then sized (big_endian256 (a_balance a)) else [])
  ++ (if negb (a_incarnation a =? 0) then sized (big_endian64 (a_incarnation a)) else [])
  ++ (if code then 32 :: a_code_hash a else []).

(** types/account.cpp:62-85 *)
Definition encoding_length_for_storage (a : account) : N :=
  1 + (if negb (a_nonce a =? 0) then 1 + blen (big_endian64 (a_nonce a)) else 0)
    + (if negb (a_balance a =? 0) then 1 + blen (big_endian256 (a_balance a)) else 0)
    + (if negb (a_incarnation a =? 0) then 1 + blen (big_endian64 (a_incarnation a)) else 0)
    + (if negb (bytes_eqb (a_code_hash a) kEmptyHash) then 1 + 32 else 0).

(** [encoded[pos++]]: undefined past the end. The position is represented by the remaining suffix. *)
Definition next_byte (from : bytes) : res (N * bytes) :=
  match from with [] => UB | b :: t => Ok (b, t) end.

(** types/account.cpp:87-103. [pos += encoded[pos++]] (C++17: the right operand is evaluated first) moves past
    the field without a bound check; reading any byte beyond the end is undefined. substr throws when the
    position is past the end, but the byte just before it has been read then. *)
Definition skip_field (from : bytes) : res bytes :=
  let* '(len, from) := next_byte from in Ok (skipn (N.to_nat len) from).
Definition extract_incarnation (encoded : bytes) : res N :=
  let* '(field_set, from) := next_byte encoded in
  let* from := (if N.testbit field_set 0 then skip_field from else Ok from) in
  let* from := (if N.testbit field_set 1 then skip_field from else Ok from) in
  if N.testbit field_set 2 then
    let* '(len, from) := next_byte from in
    read_uint64 (substr0 len from) false
  else Ok 0.

(** The three length-prefixed reads of types/account.cpp:114-150: length byte, bound check, payload. *)
Definition sized_field (from : bytes) : res (bytes * bytes) :=
  let* '(len, from) := next_byte from in
  if blen from <? len then Err kInputTooShort
  else Ok (firstn (N.to_nat len) from, skipn (N.to_nat len) from).

(** types/account.cpp:105-162. The balance bytes are copied to offset 32 - len of a 32-byte integer: undefined
    for len > 32. *)
Definition decode_account (encoded : bytes) : res account :=
  match encoded with
  | [] => Ok account_default
  | field_set :: from =>
    let* '(nonce, from) :=
      (if N.testbit field_set 0 then
         let* '(be, from) := sized_field from in
         let* n := read_uint64 be false in Ok (n, from)
       else Ok (0, from)) in
    let* '(balance, from) :=
      (if N.testbit field_set 1 then
         let* '(be, from) := sized_field from in
         if 32 <? blen be then UB else Ok (be_to_N be, from)
       else Ok (0, from)) in
    let* '(incarnation, from) :=
      (if N.testbit field_set 2 then
         let* '(be, from) := sized_field from in
         let* n := read_uint64 be false in Ok (n, from)
       else Ok (0, from)) in
    let* code_hash :=
      (if N.testbit field_set 3 then
         let* '(len, from) := next_byte from in
         if negb (len =? 32) then Err kUnexpectedLength
         else if blen from <? len then Err kInputTooShort
         else Ok (firstn 32 from)
       else Ok kEmptyHash) in
    Ok (mkAccount nonce balance code_hash incarnation)
  end.

(** types/account.cpp:164-180 *)
Definition account_rlp (a : account) (storage_root : bytes) : bytes :=
  encode_header (mkHeader true (length_u64 (a_nonce a) + length_u256 (a_balance a) + (32 + 1) + (32 + 1)))
  ++ encode_u64 (a_nonce a) ++ encode_u256 (a_balance a) ++ encode_fixed storage_root ++ encode_fixed (a_code_hash a).

(** types/log.hpp:26-30 *)
Record log := mkLog { log_address : bytes; log_topics : list bytes; log_data : bytes }.

(** types/log.cpp:24-31 *)
Definition log_rlp_header (l : log) : header :=
  mkHeader true (20 + 1 + length_vector (fun _ => length_bytes32) (log_topics l) + length_bytes (log_data l)).
(** types/log.cpp:33-36 *)
Definition length_log (l : log) : N :=
  let n := h_payload_length (log_rlp_header l) in length_of_length n + n.
(** types/log.cpp:38-43; full_view makes the address a ByteView. *)
Definition encode_log (l : log) : bytes :=
  encode_header (log_rlp_header l) ++ encode_bytes (log_address l)
  ++ encode_vector (fun _ => length_bytes32) encode_fixed (log_topics l) ++ encode_bytes (log_data l).

(** types/receipt.hpp:28-34 *)
Record receipt := mkReceipt {
  rc_type : tx_type; rc_success : bool; rc_cumulative_gas_used : N; rc_bloom : bytes; rc_logs : list log }.

(** types/receipt.cpp:24-32 *)
Definition receipt_rlp_header (r : receipt) : header :=
  mkHeader true (1 + length_u64 (rc_cumulative_gas_used r) + length_bytes (rc_bloom r) + length_vector length_log (rc_logs r)).
(** types/receipt.cpp:34-43; bool converts to uint64_t. *)
Definition encode_receipt (r : receipt) : bytes :=
  (if is_legacy (rc_type r) then [] else [type_byte (rc_type r)])
  ++ encode_header (receipt_rlp_header r)
  ++ encode_u64 (bool_u64 (rc_success r)) ++ encode_u64 (rc_cumulative_gas_used r)
  ++ encode_bytes (rc_bloom r) ++ encode_vector length_log encode_log (rc_logs r).

(** ** Bloom. [keccak] is a parameter. *)
Section Bloom.
  Variable keccak : bytes -> bytes.

  (** [bloom[i] |= v] *)
  Fixpoint or_at (i : nat) (v : N) (bl : bytes) : bytes :=
    match bl, i with
    | [], _ => []
    | b :: t, O => N.lor b v :: t
    | b :: t, S i' => b :: or_at i' v t
    end.

  (** types/bloom.cpp:26-32: hash bytes i and i+1 for i = 0, 2, 4; kBloomByteLength = 256. *)
  Definition m3_bit (hash : bytes) (i : nat) : N :=
    N.land (nth (i + 1) hash 0 + N.shiftl (nth i hash 0) 8) 0x7FF.
  Definition set_bit (bl : bytes) (bit : N) : bytes :=
    or_at (N.to_nat (256 - 1 - bit / 8)) (N.shiftl 1 (bit mod 8) mod 256) bl.
  Definition m3_2048 (bl : bytes) (x : bytes) : bytes :=
    let hash := keccak x in
    fold_left (fun bl i => set_bit bl (m3_bit hash i)) [0; 2; 4]%nat bl.

  (** types/bloom.cpp:34-43 *)
  Definition logs_bloom (logs : list log) : bytes :=
    fold_left (fun bl l => fold_left m3_2048 (log_topics l) (m3_2048 bl (log_address l))) logs (zeros 256).
End Bloom.

(** types/bloom.hpp:38-42 *)
Fixpoint join_bloom (sum addend : bytes) : bytes :=
  match sum, addend with
  | s :: st, a :: at_ => N.lor s a :: join_bloom st at_
  | _, _ => sum
  end.
