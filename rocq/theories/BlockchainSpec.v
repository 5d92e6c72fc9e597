(** Specification for C30: valid chains and histories of insertions. *)
From stdpp Require Import gmap.
From Verif Require Import Base BlockchainModel.

Section Spec.
  Context {P S : Type}.
  Notation block := (blk P).
  Variable hash : block -> bytes.
  Variable exec : S -> block -> option S.
  Variable root : S -> bytes.
  Variable pre : gmap (N * bytes) block -> block -> bool.
  Variable genesis : block.
  Variable genesis_state : S.

  (** [valid_chain l s d]: [l], newest block first, is a chain of linked blocks down to the genesis block; executing
      them one after the other from the genesis state succeeds and ends in [s]; [d] is their total difficulty. *)
  Inductive valid_chain : list block -> S -> N -> Prop :=
  | valid_genesis : valid_chain [genesis] genesis_state (b_difficulty genesis)
  | valid_next p l s d b s' :
      valid_chain (p :: l) s d -> b_number b = b_number p + 1 -> b_parent b = hash p -> exec s b = Some s' ->
      valid_chain (b :: p :: l) s' (d + b_difficulty b).

  (** Histories: calls of insert_block that returned, with their result. No call re-submits a block of the canonical
      chain (see C30_resubmit_refuted). Oldest call first. *)
  Record call := mkCall { k_block : block; k_check : bool; k_ok : bool }.
  Definition submittable (c : chain (P := P) (S := S)) (b : block) : Prop := b_number b < 2 ^ 64 /\ canonical_hash c (b_number b) <> Some (hash b).
  Inductive history : list call -> chain (P := P) (S := S) -> Prop :=
  | history_start : history [] (start hash genesis genesis_state)
  | history_call h c k c' :
      history h c -> submittable c (k_block k) ->
      insert_block hash exec root pre c (k_block k) (k_check k) = Done (k_ok k, c') ->
      history (h ++ [k]) c'.

  Definition accepted (h : list call) (b : block) : Prop := b = genesis \/ exists k, In k h /\ k_block k = b /\ k_ok k = true.
  Definition refused (h : list call) (b : block) : Prop := exists k, In k h /\ k_block k = b /\ k_ok k = false.

  (** sum of the difficulties of all blocks submitted *)
  Definition work (h : list call) : N := fold_right (fun k n => b_difficulty (k_block k) + n) (b_difficulty genesis) h.
  (** no 64-bit block number or 256-bit total difficulty can overflow *)
  Definition no_overflow (h : list call) : Prop := N.of_nat (length h) + 2 < 2 ^ 64 /\ work h < 2 ^ 256.

  (** no two of the blocks involved have the same hash *)
  Definition no_collision (l : list block) : Prop := forall a b, In a l -> In b l -> hash a = hash b -> a = b.
  Definition involved (h : list call) : list block := genesis :: map k_block h.
End Spec.
