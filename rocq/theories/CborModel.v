(** Model of db/silkworm/types/{log_cbor,receipt_cbor}.cpp and of Buffer::insert_receipts.

    The encoder is cbor-cpp's, which is not part of the repository: write_array, write_bytes, write_int and write_null are taken to
    write the shortest head of RFC 8949 for the number they are given, and write_bytes the bytes after it. *)
From stdpp Require Import gmap.
From Verif Require Import Base TxModel TypesModel DbTable DbModel BufferModel.

(** cbor::encoder::write_type_value *)
Definition write_type_value (major v : N) : bytes :=
  if v <? 24 then [32 * major + v]
  else if v <? 2 ^ 8 then (32 * major + 24) :: be_fixed 1 v
  else if v <? 2 ^ 16 then (32 * major + 25) :: be_fixed 2 v
  else if v <? 2 ^ 32 then (32 * major + 26) :: be_fixed 4 v
  else (32 * major + 27) :: be_fixed 8 v.
(** The conversion of a size to int: what follows from a negative number is not modelled. *)
Definition to_int (n : N) : out N := if n <? 2 ^ 31 then Done n else Undefined.
(** cbor::encoder *)
Definition write_array (n : N) : out bytes := do n := to_int n in Done (write_type_value 4 n).
Definition write_bytes (s : bytes) : out bytes := do n := to_int (blen s) in Done (write_type_value 2 n ++ s).
Definition write_int (n : N) : bytes := write_type_value 0 n.
Definition write_null : bytes := [0xf6].

Section Each.
  Context {A : Type} (f : A -> out bytes).
  Fixpoint each (l : list A) : out bytes :=
    match l with [] => Done [] | x :: r => do a := f x in do b := each r in Done (a ++ b) end.
End Each.
(** log_cbor.cpp:31-37; addresses and topics have 20 and 32 bytes by their types. *)
Definition cbor_log (l : log) : out bytes :=
  do a := write_array 3 in
  do b := write_bytes (log_address l) in
  do c := write_array (N.of_nat (length (log_topics l))) in
  do d := each write_bytes (log_topics l) in
  do e := write_bytes (log_data l) in
  Done (a ++ b ++ c ++ d ++ e).
(** log_cbor.cpp:24-41 *)
Definition cbor_encode_logs (v : list log) : out bytes :=
  do a := write_array (N.of_nat (length v)) in
  do b := each cbor_log v in
  Done (a ++ b).
(** receipt_cbor.cpp:34-44; types/transaction.hpp numbers the types. *)
Definition type_value (t : tx_type) : N := match t with kLegacy => 0 | kEip2930 => 1 | kEip1559 => 2 end.
Definition cbor_receipt (r : receipt) : out bytes :=
  do a := write_array 4 in
  Done (a ++ write_int (type_value (rc_type r)) ++ write_null ++ write_int (if rc_success r then 1 else 0) ++ write_int (rc_cumulative_gas_used r)).
(** receipt_cbor.cpp:24-46 *)
Definition cbor_encode_receipts (v : list receipt) : out bytes :=
  do a := match v with [] => Done write_null | _ => write_array (N.of_nat (length v)) end in
  do b := each cbor_receipt v in
  Done (a ++ b).

(** buffer.cpp:261-274: the loop from index i on; bump_batch_size is left out. *)
Fixpoint insert_logs (n i : N) (rs : list receipt) (m : gmap (N * N) bytes) : out (gmap (N * N) bytes) :=
  match rs with
  | [] => Done m
  | r :: rs =>
    match rc_logs r with
    | [] => insert_logs n (i + 1) rs m
    | logs => do v := cbor_encode_logs logs in insert_logs n (i + 1) rs (<[(n, i) := v]> m)
    end
  end.
(** buffer.cpp:261-282 *)
Definition insert_receipts (b : buffer) (n : N) (rs : list receipt) : out buffer :=
  do logs := insert_logs n 0 rs (b_logs b) in
  do v := cbor_encode_receipts rs in
  Done (mkBuf (b_accounts b) (b_storage b) (b_acc_changes b) (b_st_changes b) (b_incarnations b) (b_code b) (b_prefix_code b) (<[n := v]> (b_receipts b)) logs (b_block b) (b_changed b)).
