(** C99-C101: the runner of the Ethereum consensus tests (cmd/consensus.cpp). *)
From Coq Require Import Strings.String.
From stdpp Require Import gmap.
From Verif Require Import Base RlpModel TypesModel UtilModel UtilSpec TxModel ChainModel DbModel FarmModel StateModel MemBufModel ConsensusSpec ConsensusModel ConsensusProofs ConsensusProofs2 ConsensusProofs3 ConsensusCases.
Open Scope list_scope.
Open Scope N_scope.

(** *** C99: the state before and after a blockchain test is compared with what the file describes, account by account and slot by slot. *)
Theorem C99_post_state_partial : forall (m : membuf) expected, (forall k v, m_storage m !! k = Some v -> v <> 0 /\ v < 2 ^ 256) -> section_ok expected ->
  exists b, post_check m expected = Done b
    /\ (b = true <-> state_described (mkReadable (fun a => m_accounts m !! a) (fun h => default [] (m_code m !! h)) (fun a i l => default 0 (m_storage m !! (a, i, l)))) expected).
Proof. exact post_verdict. Qed.
Print Assumptions C99_post_state_partial.
(** Missing for the full property: sections with one address spelled in two ways. *)
Theorem C99_spelled_twice_refuted : exists (m : membuf) expected, (forall k v, m_storage m !! k = Some v -> v <> 0 /\ v < 2 ^ 256) /\ post_check m expected = Done true
  /\ exists a acc, m_accounts m !! a = Some acc /\ ~ exists s e, In (s, e) expected /\ says_address s a.
Proof. exact spelled_twice_refuted. Qed.
Print Assumptions C99_spelled_twice_refuted.

(** Only a collision of the hash could keep the state before the test from being the one described. *)
Theorem C99_pre_state : forall keccak pre, section_ok pre ->
  (forall s e c, In (s, e) pre -> hex_denotes (j_code e) c -> (keccak c = kEmptyHash -> c = [])
    /\ forall s' e' c', In (s', e') pre -> hex_denotes (j_code e') c' -> keccak c = keccak c' -> c = c') ->
  exists m, init_pre_state keccak mem_empty pre = Done m /\ (forall k v, m_storage m !! k = Some v -> v <> 0 /\ v < 2 ^ 256)
    /\ state_described (mkReadable (fun a => m_accounts m !! a) (fun h => default [] (m_code m !! h)) (fun a i l => default 0 (m_storage m !! (a, i, l)))) pre.
Proof. exact pre_state. Qed.
Print Assumptions C99_pre_state.
Theorem C99_no_blocks : forall keccak pre, section_ok pre -> codes_apart keccak pre -> exists m, init_pre_state keccak mem_empty pre = Done m /\ post_check m pre = Done true.
Proof. exact pre_state_checked. Qed.
Print Assumptions C99_no_blocks.
Example C99_witness : section_ok two_accounts /\ codes_apart hash256 two_accounts.
Proof. exact (conj two_accounts_ok two_accounts_apart_keccak). Qed.
Example C99_wrong_states_witness :
  with_two (fun m => post_check m two_accounts) = Done true
  /\ with_two (fun m => post_check m (with_first (mkJson (str "0x0a"%string) (str "0x"%string) (str "0x6000"%string) [(str "0x01"%string, str "0x03"%string)]))) = Done false
  /\ with_two (fun m => post_check m (with_first (mkJson (str "0x0a"%string) (str "0x"%string) (str "0x6000"%string) []))) = Done false
  /\ with_two (fun m => post_check m (with_first (mkJson (str "0x0b"%string) (str "0x"%string) (str "0x6000"%string) [(str "0x01"%string, str "0x02"%string)]))) = Done false
  /\ with_two (fun m => post_check m (with_first (mkJson (str "0x0a"%string) (str "0x"%string) (str "0x60"%string) [(str "0x01"%string, str "0x02"%string)]))) = Done false
  /\ with_two (fun m => post_check m (tl two_accounts)) = Done false
  /\ post_check mem_empty two_accounts = Done false.
Proof. exact wrong_states_found. Qed.

(** *** C100: a transaction test passes exactly when each network accepts or refuses the transaction as the file says, with the sender it says. *)
Theorem C100_verdict_partial : forall keccak recover rlp entries, (forall name s, In (name, s) entries -> network_config name <> None) ->
  (forall b, hex_denotes rlp b -> blen b < 2 ^ 64 /\ decode_tx b <> UB) ->
  exists ok, transaction_test keccak recover rlp entries = Done ok
    /\ (ok = true <-> forall name s c, In (name, s) entries -> network_config name = Some c ->
      match s with
      | Some x => exists a, (exists b t, hex_denotes rlp b /\ decode_tx b = Ok (t, []) /\ pre_validate_transaction t 0 c None = kOk /\ recover_sender keccak recover t = Some a) /\ x = to_hex a
      | None => forall a, ~ exists b t, hex_denotes rlp b /\ decode_tx b = Ok (t, []) /\ pre_validate_transaction t 0 c None = kOk /\ recover_sender keccak recover t = Some a
      end).
Proof. exact transaction_verdict. Qed.
Print Assumptions C100_verdict_partial.
(** The networks: the revision of the blocks before block 5 and of the others, and no other network. *)
Theorem C100_networks : Forall (fun '(name, before, after, muir, dao) =>
  exists c, network_config (str name) = Some c /\ cfg_chain_id c = 1 /\ cfg_seal_engine c = kNoProof /\ cfg_muir_glacier c = muir /\ cfg_dao_block c = dao /\ forall n, revision c n = if n <? 5 then before else after)
  [("Frontier", EVMC_FRONTIER, EVMC_FRONTIER, None, None); ("Homestead", EVMC_HOMESTEAD, EVMC_HOMESTEAD, None, None);
   ("EIP150", EVMC_TANGERINE_WHISTLE, EVMC_TANGERINE_WHISTLE, None, None); ("EIP158", EVMC_SPURIOUS_DRAGON, EVMC_SPURIOUS_DRAGON, None, None);
   ("Byzantium", EVMC_BYZANTIUM, EVMC_BYZANTIUM, None, None); ("Constantinople", EVMC_CONSTANTINOPLE, EVMC_CONSTANTINOPLE, None, None);
   ("ConstantinopleFix", EVMC_PETERSBURG, EVMC_PETERSBURG, None, None); ("Istanbul", EVMC_ISTANBUL, EVMC_ISTANBUL, None, None);
   ("Berlin", EVMC_BERLIN, EVMC_BERLIN, Some 0, None); ("London", EVMC_LONDON, EVMC_LONDON, Some 0, None);
   ("FrontierToHomesteadAt5", EVMC_FRONTIER, EVMC_HOMESTEAD, None, None); ("HomesteadToEIP150At5", EVMC_HOMESTEAD, EVMC_TANGERINE_WHISTLE, None, None);
   ("HomesteadToDaoAt5", EVMC_HOMESTEAD, EVMC_HOMESTEAD, None, Some 5); ("EIP158ToByzantiumAt5", EVMC_SPURIOUS_DRAGON, EVMC_BYZANTIUM, None, None);
   ("ByzantiumToConstantinopleFixAt5", EVMC_BYZANTIUM, EVMC_PETERSBURG, None, None); ("BerlinToLondonAt5", EVMC_BERLIN, EVMC_LONDON, Some 0, None);
   ("EIP2384", EVMC_ISTANBUL, EVMC_ISTANBUL, Some 0, None)]%string
  /\ forall name, network_config name <> None -> In name (map (fun '(s, _, _, _, _) => str s) network_table).
Proof. exact networks. Qed.
Print Assumptions C100_networks.
(** Missing for the full property: a sender spelled with a prefix counts as another one, a string that ends before the recipient is read past its end, a
    network that is not listed ends the process. *)
Theorem C100_verdict_refuted :
  (exists a, accepted hash256 zero_key signed155_hex (mkCfg 1 kNoProof (forks [0; 0; 0; 0; 0; 0; 0; 0; 0]) (Some 0) None) a /\ hex_denotes (str "0x"%string ++ zero_sender) a)
  /\ transaction_test hash256 zero_key signed155_hex [(str "London"%string, Some (str "0x"%string ++ zero_sender))] = Done false
  /\ (forall keccak recover s, transaction_test keccak recover (str "c3808080"%string) [(str "London"%string, s)] = Undefined)
  /\ (forall keccak recover s, transaction_test keccak recover signed155_hex [(str "Paris"%string, s)] = Throws).
Proof. exact transaction_refuted. Qed.
Print Assumptions C100_verdict_refuted.
Example C100_witness :
  (forall b, hex_denotes signed155_hex b -> blen b < 2 ^ 64 /\ decode_tx b <> UB)
  /\ transaction_test hash256 zero_key signed155_hex [(str "Frontier"%string, None); (str "Homestead"%string, None); (str "EIP158"%string, Some zero_sender); (str "London"%string, Some zero_sender)] = Done true
  /\ transaction_test hash256 zero_key signed155_hex [(str "Homestead"%string, Some zero_sender)] = Done false
  /\ transaction_test hash256 zero_key signed155_hex [(str "London"%string, None)] = Done false
  /\ transaction_test hash256 zero_key (signed155_hex ++ str "00"%string) [(str "London"%string, None)] = Done true.
Proof. exact signed155_case. Qed.

(** *** C101: the status of the process. *)
Theorem C101_status : forall files, exit_status (ran files) = Done (Some (failures files mod 256)).
Proof. exact status_is. Qed.
Print Assumptions C101_status.
Theorem C101_success_partial : forall files, failures files < 256 -> exists k, exit_status (ran files) = Done (Some k) /\ (k = 0 <-> forall l, In (Some l) files -> ~ In Fails l).
Proof. exact status_partial. Qed.
Print Assumptions C101_success_partial.
(** Missing for the full property: 256 failures are a success. *)
Theorem C101_success_refuted : exists files, exit_status (ran files) = Done (Some 0) /\ (exists l, In (Some l) files /\ In Fails l) /\ forall l e, In (Some l) files -> In e l -> e = Fails.
Proof. exact status_refuted. Qed.
Print Assumptions C101_success_refuted.
(** A test that throws ends the process abnormally, whatever the others do. *)
Theorem C101_throws : forall files, (forall l t, In (Some l) files -> In t l -> t <> Undefined) -> (exists l, In (Some l) files /\ In Throws l) -> exit_status files = Done None.
Proof. exact status_throws. Qed.
Print Assumptions C101_throws.
Example C101_witness : failures [Some [Passes; Fails; Skips]; None; Some [Fails; Passes]] = 2 /\ exit_status (ran [Some [Passes; Fails; Skips]; None; Some [Fails; Passes]]) = Done (Some 2).
Proof. exact status_case. Qed.
