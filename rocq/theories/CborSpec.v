(** Specification: reading CBOR (RFC 8949, sections 3 and 3.1), as far as logs and receipts need it: unsigned integers, byte strings,
    arrays of definite length and null. Heads of every width are read. *)
From Verif Require Import Base TxModel TypesModel.

Inductive cbor := CUint (n : N) | CBytes (s : bytes) | CArr (l : list cbor) | CNull.
(** A head: the major type, the argument and the rest. *)
Definition argument (k : nat) (major : N) (b : bytes) : option (N * N * bytes) :=
  if (length b <? k)%nat then None else Some (major, be_to_N (firstn k b), skipn k b).
Definition head (b : bytes) : option (N * N * bytes) :=
  match b with
  | [] => None
  | x :: r =>
    let major := x / 32 in
    let info := x mod 32 in
    if info <? 24 then Some (major, info, r)
    else if info =? 24 then argument 1 major r
    else if info =? 25 then argument 2 major r
    else if info =? 26 then argument 4 major r
    else if info =? 27 then argument 8 major r
    else None
  end.
(** [reads b x r]: the bytes b start with the item x and r is the rest. *)
Inductive reads : bytes -> cbor -> bytes -> Prop :=
| R_uint b n r : head b = Some (0, n, r) -> reads b (CUint n) r
| R_bytes b s r : head b = Some (2, blen s, s ++ r) -> reads b (CBytes s) r
| R_array b l r r' : head b = Some (4, N.of_nat (length l), r) -> reads_all r l r' -> reads b (CArr l) r'
| R_null r : reads (0xf6 :: r) CNull r
with reads_all : bytes -> list cbor -> bytes -> Prop :=
| R_nil r : reads_all r [] r
| R_cons r x r1 l r2 : reads r x r1 -> reads_all r1 l r2 -> reads_all r (x :: l) r2.
(** The whole of the bytes is one item, and this is the only way to read them. *)
Definition stands_for (b : bytes) (x : cbor) : Prop := reads b x [] /\ forall y r, reads b y r -> y = x /\ r = [].

(** The items: a log is its address, its topics and its data; a receipt its type, no state, its status and the cumulative gas. *)
Definition log_cbor (l : log) : cbor := CArr [CBytes (log_address l); CArr (map CBytes (log_topics l)); CBytes (log_data l)].
Definition logs_cbor (l : list log) : cbor := CArr (map log_cbor l).
Definition type_number (t : tx_type) : N := match t with kLegacy => 0 | kEip2930 => 1 | kEip1559 => 2 end.
Definition receipt_cbor (r : receipt) : cbor := CArr [CUint (type_number (rc_type r)); CNull; CUint (if rc_success r then 1 else 0); CUint (rc_cumulative_gas_used r)].
Definition receipts_cbor (l : list receipt) : cbor := match l with [] => CNull | _ => CArr (map receipt_cbor l) end.
(** What of a receipt is kept. *)
Definition kept (r : receipt) : tx_type * bool * N := (rc_type r, rc_success r, rc_cumulative_gas_used r).

(** Sizes for which an int is enough. *)
Definition log_fits (l : log) : Prop := blen (log_address l) < 2 ^ 31 /\ N.of_nat (length (log_topics l)) < 2 ^ 31 /\ Forall (fun t => blen t < 2 ^ 31) (log_topics l) /\ blen (log_data l) < 2 ^ 31.
Definition logs_fit (l : list log) : Prop := N.of_nat (length l) < 2 ^ 31 /\ Forall log_fits l.
Definition receipts_fit (l : list receipt) : Prop := N.of_nat (length l) < 2 ^ 31 /\ Forall (fun r => rc_cumulative_gas_used r < 2 ^ 64) l.

(** The byte strings of an item, in order. *)
Fixpoint strings (x : cbor) : list bytes :=
  match x with CBytes s => [s] | CArr l => concat (map strings l) | _ => [] end.
