(** Histories of insertions into a Blockchain over a buffer that is changed in place. *)
From stdpp Require Import gmap.
From Verif Require Import Base BlockchainModel BlockchainSpec ChainBufferModel.

Section Histories.
  Context {P T : Type}.
  Variable hash : blk P -> bytes.
  Variable pre : gmap (N * bytes) (blk P) -> blk P -> bool.
  Variable run : T -> blk P -> option (bool * T).
  Variable undo : T -> N -> T.
  Variable state_root : T -> option bytes.
  Variable genesis : blk P.
  Variable initial : T.

  (** As [history] in BlockchainSpec: the calls with their results, oldest first; no block of the canonical chain is submitted again. *)
  Inductive n_history : list (call (P := P)) -> node (P := P) (T := T) -> Prop :=
  | n_history_start : n_history [] (n_start hash genesis initial)
  | n_history_call h x k x' :
      n_history h x -> submittable hash (fst x) (k_block k) ->
      n_insert_block hash pre run undo state_root x (k_block k) (k_check k) = Done (k_ok k, x') ->
      n_history (h ++ [k]) x'.
End Histories.
