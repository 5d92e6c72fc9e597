(** C54, the transaction lookup stage: what its loop would collect if it were reached (C54_tx_lookup_refuted says it is not). *)
From Verif Require Import Base BlockModel BlockSpec RlpSpec DbTable DbModel DbSpec IndexModel ToolSpec ToolCases LookupProofs.

(** Given all bodies of the database, it collects the hash of exactly the transactions of the bodies, each with the number of the block without its leading
    zeros; a body is left at the first of its transactions that is missing. *)
Theorem C54_tx_lookup_collects : forall keccak d, wf_db d -> lookup_shapes d -> exists es m, extract_lookups keccak (d kBlockBodies) (d kEthTx) 0 = Done (es, m)
  /\ forall h v, In (h, v) es <-> exists n b i rlp, stored_body_at d n b
       /\ (i < sb_count b /\ tx_record d (sb_base b + i) rlp /\ forall j, j <= i -> exists r, tx_record d (sb_base b + j) r) /\ h = keccak rlp
       /\ ((n = 0 /\ v = zeros 8) \/ exists z x r, x <> 0 /\ v = x :: r /\ be_fixed 8 n = zeros z ++ v).
Proof. exact lookups_final. Qed.
Print Assumptions C54_tx_lookup_collects.
(** The number it ends with, which becomes the progress of the stage, is that of the last body. *)
Theorem C54_tx_lookup_reached : forall keccak d, wf_db d -> lookup_shapes d -> forall bodies n0, (forall e, In e bodies -> In e (d kBlockBodies)) ->
  exists es m, extract_lookups keccak bodies (d kEthTx) n0 = Done (es, m) /\ match rev bodies with [] => m = n0 | (k, _) :: _ => exists hash, k = be_fixed 8 m ++ hash end.
Proof. exact lookups_reached. Qed.
Print Assumptions C54_tx_lookup_reached.
Example C54_tx_lookup_case : forall keccak, wf_db (plain_db keccak) /\ lookup_shapes (plain_db keccak)
  /\ extract_lookups keccak (plain_db keccak kBlockBodies) (plain_db keccak kEthTx) 0 = Done ([(keccak some_tx, [1])], 1).
Proof. exact lookups_case. Qed.
