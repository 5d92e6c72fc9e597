(** Model of core/silkworm/chain/{config,intrinsic_gas,difficulty,validity}.cpp. *)
From Coq Require Import String.
From Verif Require Import Base RlpModel EcdsaModel TxModel BlockModel TypesModel.
Open Scope list_scope.

(** ** chain/config.hpp *)

(** evmc_revision values. *)
Definition EVMC_FRONTIER : N := 0.
Definition EVMC_HOMESTEAD : N := 1.
Definition EVMC_TANGERINE_WHISTLE : N := 2.
Definition EVMC_SPURIOUS_DRAGON : N := 3.
Definition EVMC_BYZANTIUM : N := 4.
Definition EVMC_CONSTANTINOPLE : N := 5.
Definition EVMC_PETERSBURG : N := 6.
Definition EVMC_ISTANBUL : N := 7.
Definition EVMC_BERLIN : N := 8.
Definition EVMC_LONDON : N := 9.
Definition EVMC_SHANGHAI : N := 10.
Definition EVMC_MAX_REVISION : nat := 10.

(** chain/config.hpp:30-35 *)
Inductive seal_engine := kNoProof | kEthash | kClique | kAuRA.

(** chain/config.hpp:37-67; [fork_blocks] has EVMC_MAX_REVISION entries ([cfg_ok]). *)
Record chain_config := mkCfg {
  cfg_chain_id : N;
  cfg_seal_engine : seal_engine;
  cfg_fork_blocks : list (option N);
  cfg_muir_glacier : option N;
  cfg_dao_block : option N
}.

(** chain/config.cpp:94-101: the loop from i = EVMC_MAX_REVISION - 1 down to 0. *)
Fixpoint revision_scan (i : nat) (forks : list (option N)) (block_number : N) : N :=
  match i with
  | O => EVMC_FRONTIER
  | S j =>
    match nth j forks None with
    | Some b => if b <=? block_number then N.of_nat (S j) else revision_scan j forks block_number
    | None => revision_scan j forks block_number
    end
  end.
Definition revision (c : chain_config) (block_number : N) : N :=
  revision_scan EVMC_MAX_REVISION (cfg_fork_blocks c) block_number.

(** chain/config.cpp:103-109; [at] throws (inside noexcept: terminates) beyond the array, outer None. *)
Definition revision_block (c : chain_config) (rev : N) : option (option N) :=
  if rev =? EVMC_FRONTIER then Some (Some 0)
  else nth_error (cfg_fork_blocks c) (N.to_nat (rev - 1)).

Fixpoint list_set {A} (i : nat) (x : A) (l : list A) : list A :=
  match l, i with
  | [], _ => []
  | _ :: t, O => x :: t
  | y :: t, S j => y :: list_set j x t
  end.

(** chain/config.cpp:111-115 (an index past the array would be undefined; [list_set] is used in range only). *)
Definition set_revision_block (c : chain_config) (rev : N) (block : option N) : chain_config :=
  if 0 <? rev then
    mkCfg (cfg_chain_id c) (cfg_seal_engine c) (list_set (N.to_nat (rev - 1)) block (cfg_fork_blocks c))
          (cfg_muir_glacier c) (cfg_dao_block c)
  else c.

(** nlohmann::json values, as far as they matter here: objects map keys to values; integer numbers carry
    their value (floating point numbers are not modelled); an empty object; anything else. *)
Inductive jval := JNum (z : Z) | JBool (b : bool) | JObject | JOther.
Definition json := list (string * jval).

Fixpoint jfind (j : json) (k : string) : option jval :=
  match j with [] => None | (k', v) :: t => if String.eqb k k' then Some v else jfind t k end.

(** chain/config.hpp:38-51 *)
Definition kJsonForkNames : list string :=
  ["homesteadBlock"; "eip150Block"; "eip155Block"; "byzantiumBlock"; "constantinopleBlock"; "petersburgBlock";
   "istanbulBlock"; "berlinBlock"; "londonBlock"; "shanghaiBlock"]%string.

(** json[key] = value / emplace on an object: assign, or add when the key is new. *)
Fixpoint jset (j : json) (k : string) (v : jval) : json :=
  match j with [] => [(k, v)] | (k', v') :: t => if String.eqb k k' then (k', v) :: t else (k', v') :: jset t k v end.

(** chain/config.cpp:21-25 *)
Definition member_to_json (j : json) (k : string) (source : option N) : json :=
  match source with Some n => jset j k (JNum (Z.of_N n)) | None => j end.

(** chain/config.cpp:34-62 *)
Definition to_json (c : chain_config) : json :=
  let ret := jset [] "chainId" (JNum (Z.of_N (cfg_chain_id c))) in
  let ret := match cfg_seal_engine c with
             | kEthash => jset ret "ethash" JObject
             | kClique => jset ret "clique" JObject
             | kAuRA => jset ret "aura" JObject
             | kNoProof => ret
             end in
  let ret := fold_left (fun j kv => member_to_json j (fst kv) (snd kv)) (combine kJsonForkNames (cfg_fork_blocks c)) ret in
  let ret := member_to_json ret "muirGlacierBlock" (cfg_muir_glacier c) in
  member_to_json ret "daoForkBlock" (cfg_dao_block c).

(** json::get<uint64_t>(): integers are static_cast (wrap), booleans become 0/1, anything else throws
    (None; from_json is noexcept so the program terminates). *)
Definition get_uint64 (v : jval) : option N :=
  match v with
  | JNum z => Some (Z.to_N (z mod 2 ^ 64))
  | JBool b => Some (if b then 1 else 0)
  | _ => None
  end.

(** chain/config.cpp:27-32; outer None: exception. *)
Definition read_json_config_member (j : json) (k : string) : option (option N) :=
  match jfind j k with
  | None => Some None
  | Some v => match get_uint64 v with Some n => Some (Some n) | None => None end
  end.

Fixpoint read_members (j : json) (ks : list string) : option (list (option N)) :=
  match ks with
  | [] => Some []
  | k :: t =>
    match read_json_config_member j k, read_members j t with
    | Some x, Some l => Some (x :: l)
    | _, _ => None
    end
  end.

(** Result of from_json: terminated by an exception, nullopt, or a config. *)
Inductive json_result := JTerminate | JNullopt | JConfig (c : chain_config).

(** chain/config.cpp:64-92; the argument is an object (a non-object contains no key: nullopt). *)
Definition from_json (j : json) : json_result :=
  match jfind j "chainId" with
  | Some (JNum z) =>
    let engine :=
      match jfind j "ethash", jfind j "clique", jfind j "aura" with
      | Some _, _, _ => kEthash
      | _, Some _, _ => kClique
      | _, _, Some _ => kAuRA
      | _, _, _ => kNoProof
      end in
    match read_members j kJsonForkNames, read_json_config_member j "muirGlacierBlock", read_json_config_member j "daoForkBlock" with
    | Some forks, Some mg, Some dao => JConfig (mkCfg (Z.to_N (z mod 2 ^ 64)) engine forks mg dao)
    | _, _, _ => JTerminate
    end
  | _ => JNullopt
  end.

(** chain/config.hpp:105-172 *)
Definition kMainnetConfig : chain_config :=
  mkCfg 1 kEthash
    [Some 1150000; Some 2463000; Some 2675000; Some 4370000; Some 7280000; Some 7280000; Some 9069000; Some 12244000;
     Some 12965000; None] (Some 9200000) (Some 1920000).
Definition kRopstenConfig : chain_config :=
  mkCfg 3 kEthash
    [Some 0; Some 0; Some 10; Some 1700000; Some 4230000; Some 4939394; Some 6485846; Some 9812189; Some 10499401; None]
    (Some 7117117) None.
Definition kRinkebyConfig : chain_config :=
  mkCfg 4 kClique
    [Some 1; Some 2; Some 3; Some 1035301; Some 3660663; Some 4321234; Some 5435345; Some 8290928; Some 8897988; None]
    None None.
Definition kGoerliConfig : chain_config :=
  mkCfg 5 kClique
    [Some 0; Some 0; Some 0; Some 0; Some 0; Some 0; Some 1561651; Some 4460644; Some 5062605; None] None None.

(** chain/config.hpp:174-187 *)
Definition lookup_chain_config (chain_id : N) : option chain_config :=
  if chain_id =? 1 then Some kMainnetConfig
  else if chain_id =? 3 then Some kRopstenConfig
  else if chain_id =? 4 then Some kRinkebyConfig
  else if chain_id =? 5 then Some kGoerliConfig
  else None.

(** ** chain/intrinsic_gas.cpp:25-51 (uint128 arithmetic) *)
Definition wrap128 (n : N) : N := n mod 2 ^ 128.
Definition intrinsic_gas (t : transaction) (homestead istanbul : bool) : N :=
  let gas := 21000 in
  let gas := if match tx_to t with None => homestead | Some _ => false end then wrap128 (gas + 32000) else gas in
  let gas := wrap128 (gas + wrap128 (N.of_nat (length (tx_access_list t)) * 2400)) in
  let gas := fold_left (fun g e => wrap128 (g + wrap128 (N.of_nat (length (ale_storage_keys e)) * 1900))) (tx_access_list t) gas in
  match tx_data t with
  | [] => gas
  | _ =>
    let non_zero := N.of_nat (length (filter (fun c => negb (c =? 0)) (tx_data t))) in
    let gas := wrap128 (gas + wrap128 (non_zero * (if istanbul then 16 else 68))) in
    let zero := (blen (tx_data t) + 2 ^ 128 - non_zero) mod 2 ^ 128 in
    wrap128 (gas + wrap128 (zero * 4))
  end.

(** ** chain/difficulty.cpp (uint256 and uint64 arithmetic) *)
Definition add256 (a b : N) : N := (a + b) mod 2 ^ 256.
Definition sub256 (a b : N) : N := (a + 2 ^ 256 - b) mod 2 ^ 256.
Definition mul256 (a b : N) : N := (a * b) mod 2 ^ 256.
Definition sub64 (a b : N) : N := (a + 2 ^ 64 - b) mod 2 ^ 64.
Definition add64 (a b : N) : N := (a + b) mod 2 ^ 64.
Definition mul64 (a b : N) : N := (a * b) mod 2 ^ 64.
(** intx::operator<< on uint256: shifting by 256 or more gives 0. *)
Definition shl256 (a k : N) : N := if k <? 256 then (a * 2 ^ k) mod 2 ^ 256 else 0.

(** chain/difficulty.hpp:26 *)
Definition kMinDifficulty : N := 131072.

(** chain/difficulty.cpp:21-32 *)
Definition difficulty_bomb (difficulty block_number : N) : N :=
  let n := block_number / 100000 in
  let difficulty := if 2 <=? n then add256 difficulty (shl256 1 (n - 2)) else difficulty in
  if difficulty <? kMinDifficulty then kMinDifficulty else difficulty.

(** chain/difficulty.cpp:34-47 *)
Definition canonical_difficulty_frontier (block_number block_timestamp parent_difficulty parent_timestamp : N) : N :=
  let x := parent_difficulty / 2 ^ 11 in
  let difficulty :=
    if sub64 block_timestamp parent_timestamp <? 13 then add256 parent_difficulty x else sub256 parent_difficulty x in
  difficulty_bomb difficulty block_number.

(** chain/difficulty.cpp:49-62 *)
Definition canonical_difficulty_homestead (block_number block_timestamp parent_difficulty parent_timestamp : N) : N :=
  let x := parent_difficulty / 2 ^ 11 in
  let difficulty := sub256 parent_difficulty (mul256 x 99) in
  let z := sub64 block_timestamp parent_timestamp / 10 in
  let difficulty := if z <? 100 then add256 difficulty (mul256 (100 - z) x) else difficulty in
  difficulty_bomb difficulty block_number.

(** chain/difficulty.cpp:64-86 *)
Definition canonical_difficulty_byzantium (block_number block_timestamp parent_difficulty parent_timestamp : N)
    (parent_has_uncles : bool) (bomb_delay : N) : N :=
  let x := parent_difficulty / 2 ^ 11 in
  let difficulty := sub256 parent_difficulty (mul256 x 99) in
  let y := if parent_has_uncles then 2 else 1 in
  let z := sub64 block_timestamp parent_timestamp / 9 in
  let difficulty := if z <? 99 + y then add256 difficulty (mul256 (99 + y - z) x) else difficulty in
  let block_number := if bomb_delay <? block_number then block_number - bomb_delay else 0 in
  difficulty_bomb difficulty block_number.

(** chain/difficulty.cpp:88-115 *)
Definition canonical_difficulty (block_number block_timestamp parent_difficulty parent_timestamp : N)
    (parent_has_uncles : bool) (config : chain_config) : N :=
  let rev := revision config block_number in
  if EVMC_BYZANTIUM <=? rev then
    let bomb_delay :=
      if EVMC_LONDON <=? rev then 9700000
      else if match cfg_muir_glacier config with Some b => b <=? block_number | None => false end then 9000000
      else if EVMC_CONSTANTINOPLE <=? rev then 5000000
      else 3000000 in
    canonical_difficulty_byzantium block_number block_timestamp parent_difficulty parent_timestamp parent_has_uncles bomb_delay
  else if EVMC_HOMESTEAD <=? rev then
    canonical_difficulty_homestead block_number block_timestamp parent_difficulty parent_timestamp
  else canonical_difficulty_frontier block_number block_timestamp parent_difficulty parent_timestamp.

(** ** chain/validity.{hpp,cpp} *)

(** chain/validity.hpp:28-72 *)
Inductive validation_result :=
  kOk | kWrongStateRoot | kWrongOmmersHash | kWrongTransactionsRoot | kWrongReceiptsRoot | kWrongLogsBloom
| kUnknownParent | kWrongDifficulty | kGasAboveLimit | kInvalidGasLimit | kInvalidTimestamp | kExtraDataTooLong
| kWrongDaoExtraData | kWrongBaseFee | kInvalidSeal | kMissingSender | kWrongNonce | kIntrinsicGas
| kInsufficientFunds | kBlockGasLimitExceeded | kMaxFeeLessThanBase | kMaxPriorityFeeGreaterThanMax
| kTooManyOmmers | kInvalidOmmerHeader | kNotAnOmmer | kDuplicateOmmer | kWrongBlockGas | kInvalidSignature
| kWrongChainId | kUnsupportedTransactionType.

(** chain/validity.cpp:32-73 (an enum value outside the three types cannot be built here, see TxModel). *)
Definition pre_validate_transaction (t : transaction) (block_number : N) (config : chain_config)
    (base_fee_per_gas : option N) : validation_result :=
  let rev := revision config block_number in
  if match tx_chain_id t with
     | Some c => (rev <? EVMC_SPURIOUS_DRAGON) || negb (c =? cfg_chain_id config)
     | None => false
     end then kWrongChainId
  else if match tx_typ t with
          | kEip2930 => rev <? EVMC_BERLIN
          | kEip1559 => rev <? EVMC_LONDON
          | kLegacy => false
          end then kUnsupportedTransactionType
  else if match base_fee_per_gas with Some b => tx_max_fee t <? b | None => false end then kMaxFeeLessThanBase
  else if tx_max_fee t <? tx_max_priority_fee t then kMaxPriorityFeeGreaterThanMax
  else if negb (is_valid_signature (tx_r t) (tx_s t) (EVMC_HOMESTEAD <=? rev)) then kInvalidSignature
  else if tx_gas_limit t <? intrinsic_gas t (EVMC_HOMESTEAD <=? rev) (EVMC_ISTANBUL <=? rev) then kIntrinsicGas
  else kOk.

(** What chain/validity.cpp reads from a StateBuffer (state/buffer.hpp:51-55). *)
Record chain_reader := mkReader {
  read_header : N -> bytes -> option block_header;
  read_body : N -> bytes -> option block_body
}.

(** chain/validity.cpp:75-77; [header.number - 1] is uint64. *)
Definition get_parent (st : chain_reader) (h : block_header) : option block_header :=
  read_header st (sub64 (hd_number h) 1) (hd_parent_hash h).

(** chain/validity.cpp:79-117. Outer None: dereferencing an empty optional, or division by zero. *)
Definition expected_base_fee_per_gas (h parent : block_header) (config : chain_config) : option (option N) :=
  if revision config (hd_number h) <? EVMC_LONDON then Some None
  else if match revision_block config EVMC_LONDON with Some (Some b) => hd_number h =? b | _ => false end
  then Some (Some 1000000000)
  else
    let target := hd_gas_limit parent / 2 in
    match hd_base_fee parent with
    | None => None
    | Some fee =>
      if hd_gas_used parent =? target then Some (Some fee)
      else if target =? 0 then None
      else if target <? hd_gas_used parent then
        let gas_used_delta := hd_gas_used parent - target in
        let d := mul256 fee gas_used_delta / target / 8 in
        let d := if d <? 1 then 1 else d in
        Some (Some (add256 fee d))
      else
        let gas_used_delta := target - hd_gas_used parent in
        let d := mul256 fee gas_used_delta / target / 8 in
        Some (Some (if d <? fee then fee - d else 0))
    end.

(** common/base.hpp:49 *)
Definition kEmptyListHash : bytes :=
  be_fixed 32 0x1dcc4de8dec75d7aab85b567b6ccd41ad312451b948a7413f0a142fd40d49347.

(** "0x64616f2d686172642d666f726b" *)
Definition kDaoExtraData : bytes := [0x64; 0x61; 0x6f; 0x2d; 0x68; 0x61; 0x72; 0x64; 0x2d; 0x66; 0x6f; 0x72; 0x6b].

Definition opt_eqb (a b : option N) : bool :=
  match a, b with Some x, Some y => x =? y | None, None => true | _, _ => false end.

(** types/block.cpp:32-39 *)
Definition header_eqb (a b : block_header) : bool :=
  bytes_eqb (hd_parent_hash a) (hd_parent_hash b) && bytes_eqb (hd_ommers_hash a) (hd_ommers_hash b)
  && bytes_eqb (hd_beneficiary a) (hd_beneficiary b) && bytes_eqb (hd_state_root a) (hd_state_root b)
  && bytes_eqb (hd_transactions_root a) (hd_transactions_root b) && bytes_eqb (hd_receipts_root a) (hd_receipts_root b)
  && bytes_eqb (hd_logs_bloom a) (hd_logs_bloom b) && (hd_difficulty a =? hd_difficulty b)
  && (hd_number a =? hd_number b) && (hd_gas_limit a =? hd_gas_limit b) && (hd_gas_used a =? hd_gas_used b)
  && (hd_timestamp a =? hd_timestamp b) && bytes_eqb (hd_extra_data a) (hd_extra_data b)
  && bytes_eqb (hd_mix_hash a) (hd_mix_hash b) && bytes_eqb (hd_nonce a) (hd_nonce b)
  && opt_eqb (hd_base_fee a) (hd_base_fee b).
Definition opt_header_eqb (a b : option block_header) : bool :=
  match a, b with Some x, Some y => header_eqb x y | None, None => true | _, _ => false end.

Section Validity.
  (** External: keccak256; ethash::get_boundary_from_diff followed by ethash::verify_full (true = neither
      kInvalidNonce nor kInvalidMixHash) on (number, seal hash, mix hash, nonce, difficulty);
      trie::root_hash of the transactions. *)
  Variable keccak : bytes -> bytes.
  Variable verify_full : N -> bytes -> bytes -> N -> N -> bool.
  Variable txn_root : list transaction -> bytes.

  (** types/block.cpp:26-30 *)
  Definition hdr_hash (h : block_header) (for_sealing : bool) : bytes := keccak (encode_hdr h for_sealing).

  (** chain/validity.cpp:119-200. None: undefined behaviour. *)
  Definition validate_block_header (h : block_header) (st : chain_reader) (config : chain_config) : option validation_result :=
    if hd_gas_limit h <? hd_gas_used h then Some kGasAboveLimit
    else if hd_gas_limit h <? 5000 then Some kInvalidGasLimit
    else if 0x7fffffffffffffff <? hd_gas_limit h then Some kInvalidGasLimit
    else if 32 <? blen (hd_extra_data h) then Some kExtraDataTooLong
    else
      match get_parent st h with
      | None => Some kUnknownParent
      | Some parent =>
        if hd_timestamp h <=? hd_timestamp parent then Some kInvalidTimestamp
        else
          let parent_gas_limit :=
            if match revision_block config EVMC_LONDON with Some (Some b) => hd_number h =? b | _ => false end
            then mul64 (hd_gas_limit parent) 2 else hd_gas_limit parent in
          let gas_delta :=
            if parent_gas_limit <? hd_gas_limit h then hd_gas_limit h - parent_gas_limit
            else parent_gas_limit - hd_gas_limit h in
          if parent_gas_limit / 1024 <=? gas_delta then Some kInvalidGasLimit
          else
            let parent_has_uncles := negb (bytes_eqb (hd_ommers_hash parent) kEmptyListHash) in
            let difficulty := canonical_difficulty (hd_number h) (hd_timestamp h) (hd_difficulty parent)
                                (hd_timestamp parent) parent_has_uncles config in
            if negb (difficulty =? hd_difficulty h) then Some kWrongDifficulty
            else if match cfg_dao_block config with
                    | Some d => (d <=? hd_number h) && (hd_number h <=? add64 d 9) && negb (bytes_eqb (hd_extra_data h) kDaoExtraData)
                    | None => false
                    end then Some kWrongDaoExtraData
            else
              match expected_base_fee_per_gas h parent config with
              | None => None
              | Some fee =>
                if negb (opt_eqb (hd_base_fee h) fee) then Some kWrongBaseFee
                else
                  match cfg_seal_engine config with
                  | kEthash =>
                    if verify_full (hd_number h) (hdr_hash h true) (hd_mix_hash h) (be_to_N (hd_nonce h)) (hd_difficulty h)
                    then Some kOk else Some kInvalidSeal
                  | _ => Some kOk
                  end
              end
      end.

  (** chain/validity.cpp:202-229; returns the verdict and the old ommers appended so far. *)
  Fixpoint is_kin (branch mainline : block_header) (mainline_hash : bytes) (n : nat) (st : chain_reader)
      (old_ommers : list block_header) : bool * list block_header :=
    match n with
    | O => (false, old_ommers)
    | S m =>
      if header_eqb branch mainline then (false, old_ommers)
      else
        match read_body st (hd_number mainline) mainline_hash with
        | None => (false, old_ommers)
        | Some body =>
          let old_ommers := old_ommers ++ bd_ommers body in
          let mainline_parent := get_parent st mainline in
          let branch_parent := get_parent st branch in
          match mainline_parent with
          | None => (false, old_ommers)
          | Some mp =>
            if opt_header_eqb branch_parent mainline_parent then (true, old_ommers)
            else is_kin branch mp (hd_parent_hash mainline) m st old_ommers
          end
        end
    end.

  (** chain/validity.cpp:264-277; Some kOk: fell through the loop. *)
  Fixpoint check_ommers (ommers : list block_header) (h parent : block_header) (st : chain_reader) (config : chain_config)
      : option validation_result :=
    match ommers with
    | [] => Some kOk
    | o :: t =>
      match validate_block_header o st config with
      | None => None
      | Some kOk =>
        let '(kin, old) := is_kin o parent (hd_parent_hash h) 6 st [] in
        if negb kin then Some kNotAnOmmer
        else if existsb (fun oo => header_eqb oo o) old then Some kDuplicateOmmer
        else check_ommers t h parent st config
      | Some _ => Some kInvalidOmmerHeader
      end
    end.

  (** chain/validity.cpp:279-284 *)
  Fixpoint check_transactions (txs : list transaction) (block_number : N) (config : chain_config) (base_fee : option N)
      : validation_result :=
    match txs with
    | [] => kOk
    | t :: r => match pre_validate_transaction t block_number config base_fee with
                | kOk => check_transactions r block_number config base_fee
                | e => e
                end
    end.

  (** chain/validity.cpp:231-287 *)
  Definition pre_validate_block (b : block) (st : chain_reader) (config : chain_config) : option validation_result :=
    let h := bk_header b in
    match validate_block_header h st config with
    | None => None
    | Some kOk =>
      if negb (bytes_eqb (keccak (encode_vector length_hdr (fun o => encode_hdr o false) (bk_ommers b))) (hd_ommers_hash h))
      then Some kWrongOmmersHash
      else if negb (bytes_eqb (txn_root (bk_transactions b)) (hd_transactions_root h)) then Some kWrongTransactionsRoot
      else if (2 <? length (bk_ommers b))%nat then Some kTooManyOmmers
      else if match bk_ommers b with [a; c] => header_eqb a c | _ => false end then Some kDuplicateOmmer
      else
        match bk_ommers b, get_parent st h with
        | _ :: _, None => None
        | oms, parent =>
          match check_ommers oms h (match parent with Some p => p | None => h end) st config with
          | None => None
          | Some kOk => Some (check_transactions (bk_transactions b) (hd_number h) config (hd_base_fee h))
          | Some e => Some e
          end
        end
    | Some e => Some e
    end.
End Validity.
