(** C30: the canonical chain. *)
From stdpp Require Import gmap.
From Verif Require Import Base BlockchainModel BlockchainSpec BlockchainProofs BlockchainLemmas.

(** C30: after any sequence of insertions the canonical chain is a valid chain of accepted blocks, the state is the
    result of executing it, and no accepted block has a greater total difficulty. Missing: a block of the canonical
    chain must not be submitted again. *)
Theorem C30_heaviest_partial {P S : Type} (hash : blk P -> bytes) (exec : S -> blk P -> option S) (root : S -> bytes)
  (pre : gmap (N * bytes) (blk P) -> blk P -> bool) (genesis : blk P) (genesis_state : S) h c :
  b_number genesis = 0 -> no_collision hash (involved genesis h) -> no_overflow genesis h ->
  history hash exec root pre genesis genesis_state h c ->
  exists cl d, valid_chain hash exec genesis genesis_state cl (c_state c) d /\ c_canonical c = rev (map hash cl)
    /\ (forall b, In b cl -> accepted genesis h b)
    /\ (forall b, accepted genesis h b -> exists l s d', valid_chain hash exec genesis genesis_state (b :: l) s d' /\ d' <= d).
Proof. exact (heaviest hash exec root pre genesis genesis_state h c). Qed.
Print Assumptions C30_heaviest_partial.

(** C30: every insertion returns; a refused one changes neither the canonical chain nor the state; an accepted one
    reorganises exactly when the block's chain is strictly heavier; what is accepted passed pre-validation, and has
    the state root it announces if that is checked; and a valid block on an accepted parent is accepted. *)
Theorem C30_insertion_partial {P S : Type} (hash : blk P -> bytes) (exec : S -> blk P -> option S) (root : S -> bytes)
  (pre : gmap (N * bytes) (blk P) -> blk P -> bool) (genesis : blk P) (genesis_state : S) h c b check :
  b_number genesis = 0 -> no_collision hash (b :: involved genesis h) -> no_overflow genesis (h ++ [mkCall b check true]) ->
  history hash exec root pre genesis genesis_state h c -> submittable hash c b ->
  exists ok c', insert_block hash exec root pre c b check = Done (ok, c')
    /\ (ok = false -> c_canonical c' = c_canonical c /\ c_state c' = c_state c)
    /\ (ok = true -> pre (c_blocks c) b = true)
    /\ (ok = true -> forall cl d, valid_chain hash exec genesis genesis_state cl (c_state c) d -> c_canonical c = rev (map hash cl) ->
          (forall x, In x cl -> accepted genesis h x) ->
          exists l s db, valid_chain hash exec genesis genesis_state (b :: l) s db /\ (forall x, In x l -> accepted genesis h x) /\ (check = true -> root s = b_root b)
            /\ if d <? db then c_canonical c' = rev (map hash (b :: l)) /\ c_state c' = s
               else c_canonical c' = c_canonical c /\ c_state c' = c_state c)
    /\ (forall p l s dp s', (forall x, In x (p :: l) -> accepted genesis h x) ->
          valid_chain hash exec genesis genesis_state (p :: l) s dp ->
          b_number b = b_number p + 1 -> b_parent b = hash p -> exec s b = Some s' -> pre (c_blocks c) b = true -> ~ refused h b ->
          (check = true -> forall w x t s1 d1, b :: p :: l = w ++ x :: t -> t <> [] ->
             valid_chain hash exec genesis genesis_state (x :: t) s1 d1 -> root s1 = b_root x) ->
          ok = true).
Proof. exact (insertion hash exec root pre genesis genesis_state h c b check). Qed.
Print Assumptions C30_insertion_partial.

(** a run with a side chain, a reorganisation, an invalid block and a wrong state root *)
Example C30_case : exists c, history t_hash t_exec t_root t_pre t_genesis 0 t_h c
  /\ no_collision t_hash (involved t_genesis t_h) /\ no_overflow t_genesis t_h
  /\ c_state c = 50 /\ c_canonical c = [t_hash t_genesis; t_hash t_b1; t_hash t_b2].
Proof.
  destruct t_witness as (c & H1 & H2 & H3). exists c. split; [exact H1|]. split; [intros a b _ _; exact (t_hash_inj a b)|].
  split; [exact t_no_overflow|]. split; [exact H2|exact H3].
Qed.

(** C30 fails when a block of the canonical chain is submitted again: the state is unwound, and then the intermediate
    chain is given 2^64 - 1 elements (std::length_error). *)
Theorem C30_resubmit_refuted : exists c, history t_hash t_exec t_root t_pre t_genesis 0 t_h c
  /\ accepted t_genesis t_h t_b1 /\ b_number t_b1 < 2 ^ 64 /\ insert_block t_hash t_exec t_root t_pre c t_b1 true = Throws.
Proof. exact t_resubmit. Qed.
Print Assumptions C30_resubmit_refuted.
(** and this is so for every canonical block other than the genesis block *)
Theorem C30_resubmit_throws_refuted {P S : Type} (hash : blk P -> bytes) (exec : S -> blk P -> option S) (root : S -> bytes)
  (pre : gmap (N * bytes) (blk P) -> blk P -> bool) (genesis : blk P) (genesis_state : S) h c b check :
  b_number genesis = 0 -> no_collision hash (involved genesis h) -> no_overflow genesis h ->
  history hash exec root pre genesis genesis_state h c ->
  accepted genesis h b -> b <> genesis -> canonical_hash c (b_number b) = Some (hash b) -> pre (c_blocks c) b = true -> ~ refused h b ->
  insert_block hash exec root pre c b check = Throws.
Proof. exact (resubmitted hash exec root pre genesis genesis_state h c b check). Qed.
Print Assumptions C30_resubmit_throws_refuted.
