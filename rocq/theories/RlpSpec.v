(** Specification: Recursive Length Prefix as defined in the Ethereum Yellow Paper, appendix B.
    Independent of the C++ code. *)
From Verif Require Import Base.

Inductive item : Type :=
| Str (s : bytes)          (* a byte array *)
| Lst (l : list item).     (* a sequence of items *)

(** BE(x): the shortest big-endian representation (empty for zero). *)
Definition byte_len (n : N) : N := (N.size n + 7) / 8.
Definition BE (n : N) : bytes := be_fixed (N.to_nat (byte_len n)) n.

Definition hdr (short long : N) (len : N) : bytes :=
  if len <? 56 then [short + len] else (long + byte_len len) :: BE len.

Definition rlp_str (s : bytes) : bytes :=
  match s with
  | [b] => if b <? 128 then [b] else hdr 0x80 0xB7 1 ++ [b]
  | _ => hdr 0x80 0xB7 (blen s) ++ s
  end.

Definition rlp_lst (payload : bytes) : bytes := hdr 0xC0 0xF7 (blen payload) ++ payload.

Fixpoint RLP (x : item) : bytes :=
  match x with
  | Str s => rlp_str s
  | Lst l => rlp_lst (concat (map RLP l))
  end.

(** A scalar is encoded as the byte array BE(x). *)
Definition Num (n : N) : item := Str (BE n).

(** RLP is only defined when every payload is shorter than 2^64 bytes. *)
Fixpoint item_ok (x : item) : Prop :=
  match x with
  | Str s => wf_bytes s /\ blen s < 2 ^ 64
  | Lst l => (fix all (l : list item) : Prop :=
                match l with [] => True | y :: t => item_ok y /\ all t end) l
             /\ blen (concat (map RLP l)) < 2 ^ 64
  end.
