(** Model of cmd/consensus.cpp, the runner of the Ethereum consensus tests: the state before a blockchain test and the check of the state after it, the tests of transactions, the
    networks and the status with which the process ends. Left out: reading files and JSON (a JSON object arrives as the list of its members, strings as
    they are), directories, what is printed, the tests of difficulties and the loop over the blocks of a test. *)
From Coq Require Import Strings.String.
From stdpp Require Import gmap.
From Verif Require Import Base RlpModel TypesModel UtilModel TxModel ChainModel DbModel MemBufModel StateModel FarmModel ConsensusSpec.
Open Scope list_scope.
Open Scope N_scope.

(** std::optional::value *)
Definition value {A} (x : option A) : out A := match x with Some a => Done a | None => Throws end.
(** cmd/consensus.cpp:285-289 *)
Definition check_rlp_err {A} (r : res A) : out A := match r with Ok a => Done a | Err _ => Throws | _ => Undefined end.

(** memory_buffer.cpp:211-224 *)
Definition number_of_accounts (m : membuf) : nat := size (m_accounts m).
Definition storage_size (m : membuf) (address incarnation : N) : nat := size (base.filter (fun e => fst (fst e) = (address, incarnation)) (m_storage m)).

(** cmd/consensus.cpp:420-429 *)
Fixpoint check_slots (m : membuf) (address incarnation : N) (storage : list (bytes * bytes)) : out bool :=
  match storage with
  | [] => Done true
  | (k, v) :: r =>
    do key := value (from_hex k) in
    do expected_value := value (from_hex v) in
    let actual_value := be_fixed 32 (read_storage (mem_reader m) address incarnation (be_to_N (to_bytes32 key))) in
    if negb (bytes_eqb actual_value (to_bytes32 expected_value)) then Done false else check_slots m address incarnation r
  end.
(** cmd/consensus.cpp:378-429: one entry *)
Definition check_entry (m : membuf) (key : bytes) (j : json_account) : out bool :=
  do k := value (from_hex key) in
  let address := be_to_N (to_address k) in
  match read_account (mem_reader m) address with
  | None => Done false
  | Some account =>
    do balance_str := value (from_hex (j_balance j)) in
    do expected_balance := check_rlp_err (read_uint256 balance_str true) in
    if negb (a_balance account =? expected_balance) then Done false
    else
      do nonce_str := value (from_hex (j_nonce j)) in
      do expected_nonce := check_rlp_err (read_uint64 nonce_str true) in
      if negb (a_nonce account =? expected_nonce) then Done false
      else
        let actual_code := read_code (mem_reader m) (a_code_hash account) in
        if match from_hex (j_code j) with Some c => negb (bytes_eqb actual_code c) | None => true end then Done false
        else if negb (Nat.eqb (storage_size m address (a_incarnation account)) (List.length (j_storage j))) then Done false
        else check_slots m address (a_incarnation account) (j_storage j)
  end.
(** cmd/consensus.cpp:377-430 *)
Fixpoint check_entries (m : membuf) (expected : list (bytes * json_account)) : out bool :=
  match expected with
  | [] => Done true
  | (k, j) :: r => do ok := check_entry m k j in if ok then check_entries m r else Done false
  end.
(** cmd/consensus.cpp:370-433 *)
Definition post_check (m : membuf) (expected : list (bytes * json_account)) : out bool :=
  if negb (Nat.eqb (number_of_accounts m) (List.length expected)) then Done false else check_entries m expected.

Section PreState.
  Variable keccak : bytes -> bytes.
  (** cmd/consensus.cpp:319-323 *)
  Fixpoint init_slots (m : membuf) (address incarnation : N) (storage : list (bytes * bytes)) : out membuf :=
    match storage with
    | [] => Done m
    | (k, v) :: r =>
      do key := value (from_hex k) in
      do val := value (from_hex v) in
      init_slots (update_storage m address incarnation (be_to_N (to_bytes32 key)) 0 (be_to_N (to_bytes32 val))) address incarnation r
    end.
  (** cmd/consensus.cpp:297-323: one entry *)
  Definition init_entry (m : membuf) (key : bytes) (j : json_account) : out membuf :=
    do k := value (from_hex key) in
    let address := be_to_N (to_address k) in
    do balance_str := value (from_hex (j_balance j)) in
    do balance := check_rlp_err (read_uint256 balance_str true) in
    do nonce_str := value (from_hex (j_nonce j)) in
    do nonce := check_rlp_err (read_uint64 nonce_str true) in
    do code := value (from_hex (j_code j)) in
    let account := match code with [] => mkAccount nonce balance kEmptyHash 0 | _ => mkAccount nonce balance (keccak code) 1 end in
    let m := match code with [] => m | _ => update_account_code m (keccak code) code end in
    let m := update_account m address None (Some account) in
    init_slots m address (a_incarnation account) (j_storage j).
  (** cmd/consensus.cpp:295-325 *)
  Fixpoint init_pre_state (m : membuf) (pre : list (bytes * json_account)) : out membuf :=
    match pre with
    | [] => Done m
    | (k, j) :: r => do m := init_entry m k j in init_pre_state m r
    end.
End PreState.

(** cmd/consensus.cpp:70-269 *)
Definition forks (l : list N) : list (option N) := map Some l ++ repeat None (10 - List.length l).
Definition kNetworkConfig : list (bytes * chain_config) :=
  [(str "Frontier"%string, mkCfg 1 kNoProof (forks []) None None);
   (str "Homestead"%string, mkCfg 1 kNoProof (forks [0]) None None);
   (str "EIP150"%string, mkCfg 1 kNoProof (forks [0; 0]) None None);
   (str "EIP158"%string, mkCfg 1 kNoProof (forks [0; 0; 0]) None None);
   (str "Byzantium"%string, mkCfg 1 kNoProof (forks [0; 0; 0; 0]) None None);
   (str "Constantinople"%string, mkCfg 1 kNoProof (forks [0; 0; 0; 0; 0]) None None);
   (str "ConstantinopleFix"%string, mkCfg 1 kNoProof (forks [0; 0; 0; 0; 0; 0]) None None);
   (str "Istanbul"%string, mkCfg 1 kNoProof (forks [0; 0; 0; 0; 0; 0; 0]) None None);
   (str "Berlin"%string, mkCfg 1 kNoProof (forks [0; 0; 0; 0; 0; 0; 0; 0]) (Some 0) None);
   (str "London"%string, mkCfg 1 kNoProof (forks [0; 0; 0; 0; 0; 0; 0; 0; 0]) (Some 0) None);
   (str "FrontierToHomesteadAt5"%string, mkCfg 1 kNoProof (forks [5]) None None);
   (str "HomesteadToEIP150At5"%string, mkCfg 1 kNoProof (forks [0; 5]) None None);
   (str "HomesteadToDaoAt5"%string, mkCfg 1 kNoProof (forks [0]) None (Some 5));
   (str "EIP158ToByzantiumAt5"%string, mkCfg 1 kNoProof (forks [0; 0; 0; 5]) None None);
   (str "ByzantiumToConstantinopleFixAt5"%string, mkCfg 1 kNoProof (forks [0; 0; 0; 0; 5; 5]) None None);
   (str "BerlinToLondonAt5"%string, mkCfg 1 kNoProof (forks [0; 0; 0; 0; 0; 0; 0; 0; 5]) (Some 0) None);
   (str "EIP2384"%string, mkCfg 1 kNoProof (forks [0; 0; 0; 0; 0; 0; 0]) (Some 0) None)].
Definition network_config (name : bytes) : option chain_config := match List.find (fun e => bytes_eqb (fst e) name) kNetworkConfig with Some e => Some (snd e) | None => None end.

Section Transactions.
  Variable keccak : bytes -> bytes.
  Variable recover : bytes -> bytes -> bool -> option bytes.
  (** cmd/consensus.cpp:566-575: the transaction, if all of the string is one *)
  Definition decoded (rlp : bytes) : out (option transaction) :=
    match from_hex rlp with
    | None => Done None
    | Some view => match decode_tx view with Ok (t, []) => Done (Some t) | Ok _ | Err _ => Done None | _ => Undefined end
    end.
  (** cmd/consensus.cpp:577-630: the members other than "rlp" and "_info"; the second component is the member "sender", if it is there. True: kPassed. *)
  Fixpoint check_networks (txn : option transaction) (entries : list (bytes * option bytes)) : out bool :=
    match entries with
    | [] => Done true
    | (name, sender) :: r =>
      match txn with
      | None => match sender with Some _ => Done false | None => check_networks txn r end
      | Some t =>
        do config := value (network_config name) in
        match pre_validate_transaction t 0 config None with
        | kOk =>
          match sender, recover_sender keccak recover t with
          | Some _, None => Done false
          | None, Some _ => Done false
          | None, None => check_networks txn r
          | Some expected, Some from => if negb (bytes_eqb (to_hex from) expected) then Done false else check_networks txn r
          end
        | _ => match sender with Some _ => Done false | None => check_networks txn r end
        end
      end
    end.
  (** cmd/consensus.cpp:565-632 *)
  Definition transaction_test (rlp : bytes) (entries : list (bytes * option bytes)) : out bool := do t := decoded rlp in check_networks t entries.
End Transactions.

(** cmd/consensus.cpp:327 *)
Inductive status := kPassed | kFailed | kSkipped.
(** cmd/consensus.cpp:505-530 *)
Record run_results := mkResults { passed : N; failed : N; skipped : N }.
Definition add_status (r : run_results) (s : status) : run_results :=
  match s with
  | kPassed => mkResults ((passed r + 1) mod 2 ^ 64) (failed r) (skipped r)
  | kFailed => mkResults (passed r) ((failed r + 1) mod 2 ^ 64) (skipped r)
  | kSkipped => mkResults (passed r) (failed r) ((skipped r + 1) mod 2 ^ 64)
  end.
Definition add_results (a b : run_results) : run_results :=
  mkResults ((passed a + passed b) mod 2 ^ 64) ((failed a + failed b) mod 2 ^ 64) ((skipped a + skipped b) mod 2 ^ 64).
(** cmd/consensus.cpp:538-562: a file as the results of its tests; [None]: it is no JSON. An exception of a test ends the process. *)
Fixpoint run_tests (tests : list (out status)) (r : run_results) : out run_results :=
  match tests with [] => Done r | t :: rest => do s := t in run_tests rest (add_status r s) end.
Definition run_test_file (file : option (list (out status))) : out run_results :=
  match file with None => Done (mkResults 0 0 1) | Some tests => run_tests tests (mkResults 0 0 0) end.
(** cmd/consensus.cpp:685-723: the files in the order in which they are found; the status is the number of tests that failed, as int, of which the
    system keeps the low 8 bits; an exception ends the process with the signal SIGABRT, [None] here. *)
Fixpoint run_files (files : list (option (list (out status)))) (r : run_results) : out run_results :=
  match files with [] => Done r | f :: rest => do x := run_test_file f in run_files rest (add_results r x) end.
Definition exit_status (files : list (option (list (out status)))) : out (option N) :=
  match run_files files (mkResults 0 0 0) with
  | Done r => Done (Some (failed r mod 2 ^ 32 mod 256))
  | Throws => Done None
  | Undefined => Undefined
  end.
