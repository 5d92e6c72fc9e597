(** BLOCKHASH: the hash of the ancestor [d] blocks above, found by following parent hashes. *)
From Verif Require Import Base RlpModel TxModel BlockModel.

Section Spec.
  Variable read_header : N -> bytes -> option block_header.
  Variable header : block_header.
  (** [ancestor d]: hash of the ancestor of height number - d, 1 <= d; zero when its child is not in the database. *)
  Fixpoint ancestor (d : nat) : bytes :=
    match d with
    | O => zeros 32
    | S O => hd_parent_hash header
    | S d' => match read_header (hd_number header - N.of_nat d') (ancestor d') with
              | Some h => hd_parent_hash h
              | None => zeros 32
              end
    end.
End Spec.

(** A chain of headers [c 0], [c 1], ... linked by parent hashes and present in the database. *)
Definition linked (hash : block_header -> bytes) (read_header : N -> bytes -> option block_header) (c : N -> block_header) (top : N) : Prop :=
  (forall i, i <= top -> hd_number (c i) = i)
  /\ (forall i, i < top -> hd_parent_hash (c (i + 1)) = hash (c i))
  /\ (forall i, i < top -> read_header i (hash (c i)) = Some (c i)).
