(** Model of the blockchain tests of cmd/consensus.cpp: the blocks of a test, and the test as a whole. The chain (consensus/blockchain.cpp, modelled in
    BlockchainModel) and the root of the memory buffer (modelled in MemRootModel) are parameters. *)
From Coq Require Import Strings.String.
From stdpp Require Import gmap.
From Verif Require Import Base RlpModel TypesModel BlockModel UtilModel ChainModel DbModel MemBufModel ConsensusSpec ConsensusModel.
Open Scope list_scope.
Open Scope N_scope.

(** A block of a test: the members "expectException", if it is there, and "rlp". *)
Record json_block := mkJsonBlock { jb_exception : option bytes; jb_rlp : bytes }.
Record json_test := mkJsonTest {
  jt_genesis : bytes; jt_network : bytes; jt_seal : bytes; jt_pre : list (bytes * json_account); jt_blocks : list json_block;
  jt_post_hash : option bytes; jt_post : list (bytes * json_account)
}.

Section Run.
  Context {C : Type}.
  Variable insert : C -> block -> bool -> out (bool * C).   (* Blockchain::insert_block; true: kOk *)
  (** cmd/consensus.cpp:329-367 *)
  Definition run_block (j : json_block) (c : C) : out (status * C) :=
    let invalid := match jb_exception j with Some _ => true | None => false end in
    match from_hex (jb_rlp j) with
    | None => Done (if invalid then kPassed else kFailed, c)
    | Some rlp =>
      match decode_block rlp with
      | Ok (b, []) =>
        let check_state_root := match jb_exception j with Some e => bytes_eqb e (str "InvalidStateRoot"%string) | None => false end in
        do (ok, c) := insert c b check_state_root in
        if negb ok then Done (if invalid then kPassed else kFailed, c)
        else Done (if invalid then kFailed else kPassed, c)
      | Ok _ | Err _ => Done (if invalid then kPassed else kFailed, c)
      | _ => Undefined
      end
    end.
  (** cmd/consensus.cpp:462-467 *)
  Fixpoint run_blocks (l : list json_block) (c : C) : out (status * C) :=
    match l with
    | [] => Done (kPassed, c)
    | j :: r => do (s, c) := run_block j c in match s with kPassed => run_blocks r c | _ => Done (s, c) end
    end.

  Variable keccak : bytes -> bytes.
  Variable start : chain_config -> block -> membuf -> C.    (* the constructor of Blockchain *)
  Variable state_of : C -> membuf.                          (* the buffer, which the chain writes to *)
  Variable root : membuf -> bytes.                          (* MemoryBuffer::state_root_hash *)
  (** cmd/consensus.cpp:446-454 *)
  Definition seal_of (name : bytes) : option seal_engine :=
    if bytes_eqb name (str "Ethash"%string) then Some kEthash else if bytes_eqb name (str "NoProof"%string) then Some kNoProof else None.
  Definition with_seal (c : chain_config) (s : seal_engine) : chain_config := mkCfg (cfg_chain_id c) s (cfg_fork_blocks c) (cfg_muir_glacier c) (cfg_dao_block c).
  (** cmd/consensus.cpp:469-484 *)
  Definition final_check (t : json_test) (m : membuf) : out bool :=
    match jt_post_hash t with
    | Some expected_hex => do h := value (from_hex expected_hex) in Done (bytes_eqb (root m) (to_bytes32 h))
    | None => post_check m (jt_post t)
    end.
  (** cmd/consensus.cpp:436-485 *)
  Definition blockchain_test (t : json_test) : out status :=
    do genesis_rlp := value (from_hex (jt_genesis t)) in
    do (genesis, _) := check_rlp_err (decode_block genesis_rlp) in
    do config := value (network_config (jt_network t)) in
    match seal_of (jt_seal t) with
    | None => Done kSkipped
    | Some s =>
      do m := init_pre_state keccak mem_empty (jt_pre t) in
      do (st, c) := run_blocks (jt_blocks t) (start (with_seal config s) genesis m) in
      match st with
      | kPassed => do ok := final_check t (state_of c) in Done (if ok then kPassed else kFailed)
      | _ => Done st
      end
    end.
End Run.
