(** A concrete case for the blockchain tests. *)
From Coq Require Import Strings.String.
From stdpp Require Import gmap.
From Verif Require Import Base BaseFacts RlpSpec RlpModel TypesModel BlockModel BlockSpec CodecCases UtilModel UtilSpec UtilProofs ChainModel DbModel MemBufModel ConsensusSpec ConsensusModel ConsensusProofs ConsensusProofs3 ConsensusCases ConsensusRunModel ConsensusRunProofs.
Open Scope list_scope.
Open Scope N_scope.

(** A chain that changes nothing and refuses whatever is checked. *)
Definition toy_insert (m : membuf) (b : block) (check : bool) : out (bool * membuf) := Done (negb check, m).
Definition toy_hex : bytes := to_hex (RLP (block_item sample_block)).
Definition toy_test (blocks : list json_block) : json_test :=
  mkJsonTest toy_hex (str "Berlin"%string) (str "NoProof"%string) two_accounts blocks None two_accounts.
Definition toy_blocks : list json_block := [mkJsonBlock None toy_hex; mkJsonBlock (Some (str "InvalidStateRoot"%string)) toy_hex; mkJsonBlock (Some (str "OutOfGas"%string)) (toy_hex ++ str "00"%string)].
Definition run_toy (blocks : list json_block) : out status := blockchain_test toy_insert hash256 (fun _ _ m => m) (fun m => m) (fun _ => []) (toy_test blocks).
Lemma toy_hex_is : from_hex toy_hex = Some (RLP (block_item sample_block)).
Proof. vm_compute. reflexivity. Qed.
Lemma toy_decodes : decode_block (RLP (block_item sample_block)) = Ok (sample_block, []).
Proof. vm_compute. reflexivity. Qed.
Lemma toy_whole : whole_block toy_hex sample_block.
Proof. exists (RLP (block_item sample_block)). split; [apply from_hex_spec; exact toy_hex_is|exact toy_decodes]. Qed.
Definition toy_config : chain_config := match network_config (str "Berlin"%string) with Some c => mkCfg (cfg_chain_id c) kNoProof (cfg_fork_blocks c) (cfg_muir_glacier c) (cfg_dao_block c) | None => mkCfg 0 kNoProof [] None None end.
Lemma toy_ok : exists config, test_ok hash256 (toy_test toy_blocks) sample_block config.
Proof.
  exists toy_config. constructor.
  - exact toy_whole.
  - eexists. split; [vm_compute; reflexivity|]. split; [right; split; reflexivity|]. repeat (split; [vm_compute; reflexivity|]). vm_compute; reflexivity.
  - exact (conj two_accounts_ok two_accounts_apart_keccak).
  - assert (A : defined_block toy_hex) by (intros v Hv; rewrite (hex_is _ _ toy_hex_is v Hv), toy_decodes; split; discriminate).
    intros j [<-|[<-|[<-|[]]]]; [exact A|exact A|]. intros v Hv. cbn [jb_rlp] in Hv.
    assert (E : from_hex (toy_hex ++ str "00"%string) = Some (RLP (block_item sample_block) ++ [0])) by (vm_compute; reflexivity).
    rewrite (hex_is _ _ E v Hv). split; intros Q; vm_compute in Q; discriminate Q.
  - exact two_accounts_ok.
Qed.
Lemma toy_runs : run_toy toy_blocks = Done kPassed /\ run_toy [mkJsonBlock (Some (str "OutOfGas"%string)) toy_hex] = Done kFailed
  /\ run_toy [mkJsonBlock None (toy_hex ++ str "00"%string)] = Done kFailed /\ run_toy [mkJsonBlock None (str "xyz"%string)] = Done kFailed.
Proof. repeat (split; [vm_compute; reflexivity|]). vm_compute; reflexivity. Qed.
(** What the verdict does not say: why a block was refused, and whether the roots of accepted blocks are right. *)
Lemma run_refuted :
  (forall C (insert : C -> block -> bool -> out (bool * C)) e c, run_blocks insert [mkJsonBlock (Some e) (str "not hexadecimal"%string)] c = Done (kPassed, c))
  /\ (forall C (insert insert' : C -> block -> bool -> out (bool * C)) l, (forall c b, insert c b false = insert' c b false) ->
       (forall j, In j l -> jb_exception j <> Some (str "InvalidStateRoot"%string)) -> forall c, run_blocks insert l c = run_blocks insert' l c)
  /\ (forall b, toy_insert mem_empty b true = Done (false, mem_empty)) /\ run_toy [mkJsonBlock None toy_hex] = Done kPassed.
Proof. split; [intros C insert e c; exact (any_exception insert e c)|]. split; [intros C insert insert' l; exact (roots_not_checked insert insert' l)|]. split; [reflexivity|]. vm_compute. reflexivity. Qed.
