(** Specification of the collector. *)
From Coq Require Import Permutation Sorting.Sorted.
From Verif Require Import Base DbTable DbModel EtlModel.

(** (key, value) order *)
Definition in_order (l : list entry) : Prop := StronglySorted (fun a b => pair_lt b a = false) l.
(** The heap gives the place of a least element. *)
Definition least_first (pick : list (entry * nat) -> nat) : Prop :=
  forall q, q <> [] -> exists x, nth_error q (pick q) = Some x /\ forall y, In y q -> pair_lt (fst y) (fst x) = false.
(** Entries whose lengths fit the heads of the records. *)
Definition fits (e : entry) : Prop := blen (fst e) < 2 ^ 32 /\ blen (snd e) < 2 ^ 32.
Definition total_size (l : list entry) : N := fold_right (fun e n => entry_size e + 8 + n) 0 l.
