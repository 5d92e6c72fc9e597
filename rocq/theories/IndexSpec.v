(** Specification of the indexes. *)
From Coq Require Import Permutation.
From stdpp Require Import gmap.
From Verif Require Import Base DbTable DbModel.

(** Block n changed the account with address a. *)
Definition account_changed (d : database) (a : bytes) (n : N) : Prop := n < 2 ^ 64 /\ exists s, In (be_fixed 8 n, a ++ s) (d kPlainAccountChangeSet).
(** The open chunk of the index of address a names block n. *)
Definition open_chunk (a : bytes) : bytes := a ++ be_fixed 8 (2 ^ 64 - 1).
Definition account_indexed (bm_read : bytes -> gset N) (d : database) (a : bytes) (n : N) : Prop :=
  exists v, In (open_chunk a, v) (d kAccountHistory) /\ n ∈ bm_read v.

(** What the serialisation of bitmaps has to do; the buffer written to has the size that was asked for. *)
Record faithful (size_in_bytes : gset N -> N) (bm_write : gset N -> bytes) (bm_read : bytes -> gset N) : Prop := {
  fa_read : forall b, bm_read (bm_write b) = b;
  fa_size : forall b, blen (bm_write b) = size_in_bytes b
}.
(** The order in which a map is walked. *)
Definition some_order {A} (walk : list A -> list A) : Prop := forall l, Permutation (walk l) l.

(** A change set of accounts: records under block numbers, each starting with an address. *)
Definition account_change_set (t : table) : Prop :=
  (forall k v, In (k, v) t -> exists n a s, n < 2 ^ 32 /\ k = be_fixed 8 n /\ length a = 20%nat /\ v = a ++ s) /\ N.of_nat (length t) < 2 ^ 32.
(** The bitmaps of every account stay within the limit of a chunk. *)
Definition one_chunk (size_in_bytes : gset N -> N) (bm_read : bytes -> gset N) (d : database) : Prop :=
  forall a (b : gset N), length a = 20%nat -> (forall n, n ∈ b -> account_changed d a n \/ account_indexed bm_read d a n) ->
    size_in_bytes b <= 1950 /\ forall n, n ∈ b -> n < 2 ^ 32.
