(** Specification for accounts, logs, receipts and blooms. *)
From Verif Require Import Base RlpSpec TxModel TypesModel.

Definition hash32 (b : bytes) : Prop := blen b = 32 /\ wf_bytes b.
Definition addr20 (b : bytes) : Prop := blen b = 20 /\ wf_bytes b.

Definition wf_account (a : account) : Prop :=
  u64 (a_nonce a) /\ u256 (a_balance a) /\ hash32 (a_code_hash a) /\ u64 (a_incarnation a).

(** What survives when the code hash is omitted. *)
Definition without_code_hash (a : account) : account := mkAccount (a_nonce a) (a_balance a) kEmptyHash (a_incarnation a).

(** Yellow Paper (4.1): account state = RLP(nonce, balance, storage root, code hash). *)
Definition account_item (a : account) (root : bytes) : item :=
  Lst [Num (a_nonce a); Num (a_balance a); Str root; Str (a_code_hash a)].

(** Yellow Paper (4.3.1) *)
Definition log_item (l : log) : item := Lst [Str (log_address l); Lst (map Str (log_topics l)); Str (log_data l)].
Definition wf_log (l : log) : Prop := addr20 (log_address l) /\ Forall hash32 (log_topics l) /\ wf_bytes (log_data l).

(** EIP-658 / EIP-2718 receipts. *)
Definition receipt_item (r : receipt) : item :=
  Lst [Num (if rc_success r then 1 else 0); Num (rc_cumulative_gas_used r); Str (rc_bloom r); Lst (map log_item (rc_logs r))].
Definition receipt_envelope (r : receipt) : bytes :=
  match rc_type r with
  | kLegacy => RLP (receipt_item r)
  | kEip2930 => 1 :: RLP (receipt_item r)
  | kEip1559 => 2 :: RLP (receipt_item r)
  end.
Definition wf_receipt (r : receipt) : Prop :=
  u64 (rc_cumulative_gas_used r) /\ (blen (rc_bloom r) = 256 /\ wf_bytes (rc_bloom r)) /\ Forall wf_log (rc_logs r).

(** Bloom: bit [b] of the 2048-bit big-endian number. *)
Definition bloom_has (bl : bytes) (b : N) : Prop := N.testbit (be_to_N bl) b = true.

(** The three bits of an entry: low 11 bits of the first three byte pairs of its hash. *)
Definition entry_bit (keccak : bytes -> bytes) (x : bytes) (b : N) : Prop :=
  exists k, (k < 3)%nat /\ b = (256 * nth (2 * k) (keccak x) 0 + nth (2 * k + 1) (keccak x) 0) mod 2048.

(** Bloom entries of a list of logs: every address and every topic. *)
Definition log_entries (logs : list log) (x : bytes) : Prop :=
  exists l, In l logs /\ (x = log_address l \/ In x (log_topics l)).

(** A stored account record is well framed when each announced field has its length byte, and the balance does
    not exceed 32 bytes (or the payload is cut short, which the decoder reports). [caps] lists the largest allowed
    length of each announced field. *)
Inductive framed : list N -> bytes -> Prop :=
| framed_nil : forall from, framed [] from
| framed_short : forall m ms l t, blen t < l -> framed (m :: ms) (l :: t)
| framed_cons : forall m ms l t, l <= m -> framed ms (skipn (N.to_nat l) t) -> framed (m :: ms) (l :: t).
Definition announced (field_set : N) : list N :=
  (if N.testbit field_set 0 then [255] else []) ++ (if N.testbit field_set 1 then [32] else [])
  ++ (if N.testbit field_set 2 then [255] else []) ++ (if N.testbit field_set 3 then [255] else []).
