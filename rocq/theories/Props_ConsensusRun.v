(** C102: the blockchain tests of the consensus test runner (cmd/consensus.cpp). *)
From Coq Require Import Strings.String.
From stdpp Require Import gmap.
From Verif Require Import Base TypesModel BlockModel UtilSpec RlpModel ChainModel DbModel MemBufModel CodecCases ConsensusSpec ConsensusModel ConsensusProofs ConsensusCases ConsensusRunModel ConsensusRunProofs ConsensusRunCases.
Open Scope list_scope.
Open Scope N_scope.

(** The blocks pass exactly when each is accepted by the chain, in this order, or refused where an exception is expected ([plays]). *)
Theorem C102_blocks_partial : forall {C : Type} (insert : C -> block -> bool -> out (bool * C)) l c c',
  (forall j v, In j l -> hex_denotes (jb_rlp j) v -> decode_block v <> UB /\ decode_block v <> NoFuel) -> run_blocks insert l c = Done (kPassed, c') <-> plays insert l c c'.
Proof. exact @blocks_verdict. Qed.
Print Assumptions C102_blocks_partial.
(** A test passes exactly when its blocks do, from the state its file begins with, and the state at the end has the root the file gives or is the one it describes. *)
Theorem C102_verdict_partial : forall {C : Type} (insert : C -> block -> bool -> out (bool * C)) keccak (start : chain_config -> block -> membuf -> C) (state_of : C -> membuf) root t genesis config,
  test_ok keccak t genesis config -> (forall m c, slots_ok m -> plays insert (jt_blocks t) (start config genesis m) c -> slots_ok (state_of c)) ->
  exists m, slots_ok m /\ state_described (reads m) (jt_pre t)
    /\ (blockchain_test insert keccak start state_of root t = Done kPassed
        <-> exists c, plays insert (jt_blocks t) (start config genesis m) c
              /\ match jt_post_hash t with Some h => exists v, hex_denotes h v /\ root (state_of c) = v | None => state_described (reads (state_of c)) (jt_post t) end).
Proof. exact @test_verdict. Qed.
Print Assumptions C102_verdict_partial.
Theorem C102_skipped : forall {C : Type} (insert : C -> block -> bool -> out (bool * C)) keccak (start : chain_config -> block -> membuf -> C) (state_of : C -> membuf) root t genesis c,
  (exists v, hex_denotes (jt_genesis t) v /\ decode_block v = Ok (genesis, [])) -> network_config (jt_network t) = Some c -> jt_seal t <> str "Ethash"%string -> jt_seal t <> str "NoProof"%string ->
  blockchain_test insert keccak start state_of root t = Done kSkipped.
Proof. exact @test_skipped. Qed.
Print Assumptions C102_skipped.
(** Missing for the full property: the reason for which a block is refused, and the roots of the blocks that are accepted, which are not looked at. *)
Theorem C102_reasons_and_roots_refuted :
  (forall C (insert : C -> block -> bool -> out (bool * C)) e c, run_blocks insert [mkJsonBlock (Some e) (str "not hexadecimal"%string)] c = Done (kPassed, c))
  /\ (forall C (insert insert' : C -> block -> bool -> out (bool * C)) l, (forall c b, insert c b false = insert' c b false) ->
       (forall j, In j l -> jb_exception j <> Some (str "InvalidStateRoot"%string)) -> forall c, run_blocks insert l c = run_blocks insert' l c)
  /\ (forall b, toy_insert mem_empty b true = Done (false, mem_empty)) /\ run_toy [mkJsonBlock None toy_hex] = Done kPassed.
Proof. exact run_refuted. Qed.
Print Assumptions C102_reasons_and_roots_refuted.
Example C102_witness : (exists config, test_ok hash256 (toy_test toy_blocks) sample_block config) /\ run_toy toy_blocks = Done kPassed
  /\ run_toy [mkJsonBlock (Some (str "OutOfGas"%string)) toy_hex] = Done kFailed /\ run_toy [mkJsonBlock None (toy_hex ++ str "00"%string)] = Done kFailed /\ run_toy [mkJsonBlock None (str "xyz"%string)] = Done kFailed.
Proof. exact (conj toy_ok toy_runs). Qed.
