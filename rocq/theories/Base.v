(** Byte strings, big-endian integers and the outcome type shared by all models.

    A [silkworm::Bytes] / [ByteView] (core/silkworm/common/base.hpp) is a [list N] whose elements are
    below 256 ([wf_bytes]). C++ unsigned integers are [N]; wrap-around is written out where it can occur. *)
From Coq Require Export List NArith ZArith Lia Bool.
From Coq Require Export ZifyBool ZifyNat ZifyN.
Export ListNotations.
#[global] Open Scope N_scope.

Arguments N.add : simpl never.
Arguments N.mul : simpl never.
Arguments N.sub : simpl never.
Arguments N.div : simpl never.
Arguments N.modulo : simpl never.
Arguments N.pow : simpl never.
Arguments N.ltb : simpl never.
Arguments N.leb : simpl never.
Arguments N.eqb : simpl never.
Arguments N.of_nat : simpl never.
Arguments N.to_nat : simpl never.

Ltac Zify.zify_post_hook ::= Z.div_mod_to_equations.

Notation byte := N (only parsing).
Definition bytes := list N.

Definition wf_byte (b : N) : Prop := b < 256.
Definition wf_bytes (bs : bytes) : Prop := Forall wf_byte bs.

(** Boolean version, used to discharge concrete instances. *)
Definition wf_bytesb (bs : bytes) : bool := forallb (fun b => b <? 256) bs.

Definition blen (bs : bytes) : N := N.of_nat (length bs).

(** A byte view as it can exist on a 64-bit machine. *)
Definition view (bs : bytes) : Prop := wf_bytes bs /\ blen bs < 2 ^ 64.

(** Big-endian value of a byte string. *)
Definition be_to_N (bs : bytes) : N := fold_left (fun acc b => acc * 256 + b) bs 0.

(** The [k]-byte big-endian representation of [n mod 256^k] (what a store of a k-byte
    unsigned integer in network order writes). *)
Fixpoint be_fixed (k : nat) (n : N) : bytes :=
  match k with
  | O => []
  | S k' => be_fixed k' (n / 256) ++ [n mod 256]
  end.

(** Fixed-width unsigned ranges. *)
Definition u8  (n : N) : Prop := n < 2 ^ 8.
Definition u16 (n : N) : Prop := n < 2 ^ 16.
Definition u32 (n : N) : Prop := n < 2 ^ 32.
Definition u64 (n : N) : Prop := n < 2 ^ 64.
Definition u256 (n : N) : Prop := n < 2 ^ 256.

(** Number of leading zero bits of a [w]-bit word (intx::clz): [w] for zero. *)
Definition clz (w n : N) : N := w - N.size n.

(** Byte-wise lexicographic order, as used by [std::basic_string::compare] and by MDBX. *)
Fixpoint lex_lt (a b : bytes) : bool :=
  match a, b with
  | [], [] => false
  | [], _ :: _ => true
  | _ :: _, [] => false
  | x :: a', y :: b' => if x <? y then true else if y <? x then false else lex_lt a' b'
  end.

Definition bytes_eq_dec (a b : bytes) : {a = b} + {a <> b} := list_eq_dec N.eq_dec a b.
Fixpoint bytes_eqb (a b : bytes) : bool :=
  match a, b with
  | [], [] => true
  | x :: a', y :: b' => (x =? y) && bytes_eqb a' b'
  | _, _ => false
  end.

(** Zero-filled byte string of a given size. *)
Definition zeros (n : nat) : bytes := repeat 0 n.
