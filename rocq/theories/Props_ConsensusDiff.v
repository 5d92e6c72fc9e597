(** C103: the difficulty tests of the consensus test runner (cmd/consensus.cpp). *)
From Coq Require Import Strings.String.
From Verif Require Import Base UtilSpec ChainModel ChainSpec DbModel ConsensusModel ConsensusDiffModel ConsensusDiffProofs ConsensusDiffCases.
Open Scope list_scope.
Open Scope N_scope.

(** A test passes exactly when the difficulty it gives is that of the protocol, and fails otherwise. *)
Theorem C103_verdict_partial : forall (stoll : bytes -> out Z) (from_string : bytes -> out N) j config parent_time parent_difficulty time number said uncles d,
  stoll (jd_parent_timestamp j) = Done (Z.of_N parent_time) -> stoll (jd_timestamp j) = Done (Z.of_N time) -> stoll (jd_number j) = Done (Z.of_N number) ->
  from_string (jd_parent_difficulty j) = Done parent_difficulty -> from_string (jd_difficulty j) = Done said ->
  match jd_parent_uncles j with None => uncles = false | Some h => exists v, hex_denotes h v /\ (uncles = true <-> v <> kEmptyListHash) end ->
  parent_time <= time < 2 ^ 63 -> number < 2 ^ 63 -> parent_difficulty < 2 ^ 256 ->
  spec_difficulty config number (Z.of_N time - Z.of_N parent_time) (Z.of_N parent_difficulty) uncles d -> (d < 2 ^ 256)%Z ->
  exists s, difficulty_test stoll from_string j config = Done s /\ (s = kPassed <-> Z.of_N said = d) /\ (s = kFailed <-> Z.of_N said <> d).
Proof. exact difficulty_verdict. Qed.
Print Assumptions C103_verdict_partial.
(** Missing for the full property: blocks dated before their parent, for which the wrong difficulty is asked for. *)
Theorem C103_early_refuted : spec_difficulty frontier 7 (999 - 1000) 2048000 false 2049000
  /\ difficulty_test decimal_z decimal (early_block "2049000") frontier = Done kFailed /\ difficulty_test decimal_z decimal (early_block "2047000") frontier = Done kPassed.
Proof. exact early_refuted. Qed.
Print Assumptions C103_early_refuted.
Example C103_witness_hypotheses : (decimal_z (str "1000"%string) = Done (Z.of_N 1000) /\ decimal_z (str "1025"%string) = Done (Z.of_N 1025) /\ decimal_z (str "7"%string) = Done (Z.of_N 7)
  /\ decimal (str "2048000"%string) = Done 2048000 /\ uncles_said (Some empty_list_hex) false /\ uncles_said (Some other_hex) true /\ uncles_said None false)
  /\ spec_difficulty byzantium 7 (Z.of_N 1025 - Z.of_N 1000) (Z.of_N 2048000) true 2048000 /\ spec_difficulty byzantium 7 (Z.of_N 1025 - Z.of_N 1000) (Z.of_N 2048000) false 2047000.
Proof. exact (conj late_reads late_spec). Qed.
Example C103_witness_runs :
  difficulty_test decimal_z decimal (late_block "2047000" None) byzantium = Done kPassed /\ difficulty_test decimal_z decimal (late_block "2047000" (Some empty_list_hex)) byzantium = Done kPassed
  /\ difficulty_test decimal_z decimal (late_block "2048000" (Some other_hex)) byzantium = Done kPassed /\ difficulty_test decimal_z decimal (late_block "2047000" (Some other_hex)) byzantium = Done kFailed
  /\ difficulty_test decimal_z decimal (late_block "2047000" None) homestead = Done kPassed /\ difficulty_test decimal_z decimal (late_block "2047001" None) homestead = Done kFailed.
Proof. exact late_runs. Qed.
