(** Model of the difficulty tests of cmd/consensus.cpp. The readers of numbers are parameters: std::stoll with base 0 and intx::from_string are not part of the code. *)
From Verif Require Import Base UtilModel TypesModel BlockModel ChainModel DbModel ConsensusModel.
Open Scope list_scope.
Open Scope N_scope.

(** The members of a difficulty test, as texts; the uncles of the parent may be missing. *)
Record json_difficulty := mkJsonDifficulty {
  jd_parent_timestamp : bytes; jd_parent_difficulty : bytes; jd_timestamp : bytes; jd_number : bytes; jd_difficulty : bytes; jd_parent_uncles : option bytes
}.
Section Difficulty.
  Variable stoll : bytes -> out Z.          (* std::stoll(s, 0, 0) *)
  Variable from_string : bytes -> out N.    (* intx::from_string<intx::uint256> *)
  (** The conversion of long long to uint64_t in the call of canonical_difficulty. *)
  Definition as_uint64 (z : Z) : N := Z.to_N (z mod 2 ^ 64).
  (** cmd/consensus.cpp:635-657; the optional configuration is always there for these tests (cmd/consensus.cpp:271-283, 689-691). *)
  Definition difficulty_test (j : json_difficulty) (config : chain_config) : out status :=
    do parent_timestamp := stoll (jd_parent_timestamp j) in
    do parent_difficulty := from_string (jd_parent_difficulty j) in
    do current_timestamp := stoll (jd_timestamp j) in
    do block_number := stoll (jd_number j) in
    do current_difficulty := from_string (jd_difficulty j) in
    do parent_has_uncles := match jd_parent_uncles j with
      | Some s => do u := value (from_hex s) in Done (negb (bytes_eqb u kEmptyListHash))
      | None => Done false
      end in
    let calculated_difficulty := canonical_difficulty (as_uint64 block_number) (as_uint64 current_timestamp) parent_difficulty (as_uint64 parent_timestamp) parent_has_uncles config in
    Done (if calculated_difficulty =? current_difficulty then kPassed else kFailed).
End Difficulty.
