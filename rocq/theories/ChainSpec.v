(** Protocol rules, written over unbounded integers from the Yellow Paper and the EIPs. *)
From Coq Require Import Ascii String.
From Verif Require Import Base RlpSpec RlpModel EcdsaModel TxModel BlockModel BlockSpec ChainModel.

(** A fork schedule as the repository's types allow it: ten optional uint64 activation blocks. *)
Definition opt_u64 (o : option N) : Prop := match o with Some n => u64 n | None => True end.
Definition cfg_ok (c : chain_config) : Prop :=
  length (cfg_fork_blocks c) = 10%nat /\ u64 (cfg_chain_id c) /\ Forall opt_u64 (cfg_fork_blocks c)
  /\ opt_u64 (cfg_muir_glacier c) /\ opt_u64 (cfg_dao_block c).

(** Activation block of revision [r] (1 = Homestead ... 10 = Shanghai); revision 0 (Frontier) is always on. *)
Definition activation (c : chain_config) (r : N) : option N :=
  if r =? 0 then Some 0 else nth (N.to_nat r - 1) (cfg_fork_blocks c) None.
Definition activated (c : chain_config) (r n : N) : Prop := exists b, activation c r = Some b /\ b <= n.
(** At block [n] the rules of revision [r] apply: [r] or a later one has been activated. *)
Definition rules_from (c : chain_config) (r n : N) : Prop := exists r', r <= r' <= 10 /\ activated c r' n.

(** ** Intrinsic gas: Yellow Paper (60), EIP-2, EIP-2028, EIP-2930. *)
Definition sumN (l : list N) : N := fold_right N.add 0 l.
Definition spec_intrinsic_gas (t : transaction) (homestead istanbul : bool) : N :=
  sumN (map (fun b => if b =? 0 then 4 else if istanbul then 16 else 68) (tx_data t))
  + (match tx_to t with None => if homestead then 32000 else 0 | Some _ => 0 end)
  + 21000
  + sumN (map (fun e => 2400 + 1900 * N.of_nat (length (ale_storage_keys e))) (tx_access_list t)).

(** Sizes a 64-bit machine can hold. *)
Definition tx_sizes_ok (t : transaction) : Prop :=
  blen (tx_data t) < 2 ^ 64 /\ N.of_nat (length (tx_access_list t)) < 2 ^ 64
  /\ sumN (map (fun e => N.of_nat (length (ale_storage_keys e))) (tx_access_list t)) < 2 ^ 64.

(** ** Difficulty: Yellow Paper (41)-(46), EIP-2, EIP-100, EIP-649/1234/2384/3554. *)
Open Scope Z_scope.
Definition spec_bomb (n : Z) : Z := let k := n / 100000 in if 2 <=? k then 2 ^ (k - 2) else 0.
Definition spec_difficulty_of (factor fake_number parent_difficulty : Z) : Z :=
  Z.max 131072 (parent_difficulty + parent_difficulty / 2048 * factor + spec_bomb fake_number).
Definition spec_factor_frontier (dt : Z) : Z := if dt <? 13 then 1 else -1.
Definition spec_factor_homestead (dt : Z) : Z := Z.max (1 - dt / 10) (-99).
Definition spec_factor_byzantium (uncles : bool) (dt : Z) : Z := Z.max ((if uncles then 2 else 1) - dt / 9) (-99).
Definition fake_number (delay n : Z) : Z := Z.max 0 (n - delay).

(** The bomb delay in force from Byzantium on. *)
Inductive spec_delay (c : chain_config) (n : N) : Z -> Prop :=
| delay_london : rules_from c 9 n -> spec_delay c n 9700000
| delay_muir b : ~ rules_from c 9 n -> cfg_muir_glacier c = Some b -> (b <= n)%N -> spec_delay c n 9000000
| delay_constantinople : ~ rules_from c 9 n -> (forall b, cfg_muir_glacier c = Some b -> (n < b)%N) -> rules_from c 5 n ->
    spec_delay c n 5000000
| delay_byzantium : ~ rules_from c 5 n -> (forall b, cfg_muir_glacier c = Some b -> (n < b)%N) -> spec_delay c n 3000000.

Inductive spec_difficulty (c : chain_config) (n : N) (dt pd : Z) (uncles : bool) : Z -> Prop :=
| diff_byzantium delay : rules_from c 4 n -> spec_delay c n delay ->
    spec_difficulty c n dt pd uncles (spec_difficulty_of (spec_factor_byzantium uncles dt) (fake_number delay (Z.of_N n)) pd)
| diff_homestead : ~ rules_from c 4 n -> rules_from c 1 n ->
    spec_difficulty c n dt pd uncles (spec_difficulty_of (spec_factor_homestead dt) (Z.of_N n) pd)
| diff_frontier : ~ rules_from c 1 n ->
    spec_difficulty c n dt pd uncles (spec_difficulty_of (spec_factor_frontier dt) (Z.of_N n) pd).
Close Scope Z_scope.

(** ** Base fee: EIP-1559 (block after the fork block). *)
Definition spec_next_base_fee (parent_fee gas_used gas_limit : N) : N :=
  let target := gas_limit / 2 in
  if gas_used =? target then parent_fee
  else if target <? gas_used then parent_fee + N.max (parent_fee * (gas_used - target) / target / 8) 1
  else parent_fee - parent_fee * (target - gas_used) / target / 8.

(** ** Signatures: Yellow Paper (308)-(311), EIP-2. *)
Definition secp256k1_order : N := 115792089237316195423570985008687907852837564279074904382605163141518161494337.
Definition spec_valid_signature (homestead : bool) (r s : N) : Prop :=
  0 < r < secp256k1_order /\ 0 < s < secp256k1_order /\ (homestead = true -> s <= secp256k1_order / 2).

(** ** Transaction rules that need neither the sender nor the state, with the verdict for a violation. *)
Inductive rule := Rule (holds : Prop) (violation : validation_result).
(** [verdict rules r]: [r] is kOk if every rule holds, otherwise the verdict of the first one violated. *)
Inductive verdict : list rule -> validation_result -> Prop :=
| verdict_ok : verdict [] kOk
| verdict_bad (P : Prop) e rs : ~ P -> verdict (Rule P e :: rs) e
| verdict_next (P : Prop) e rs r : P -> verdict rs r -> verdict (Rule P e :: rs) r.

Definition chain_id_rule (c : chain_config) (n : N) (t : transaction) : Prop :=
  forall i, tx_chain_id t = Some i -> rules_from c 3 n /\ i = cfg_chain_id c.
Definition type_rule (c : chain_config) (n : N) (t : transaction) : Prop :=
  (tx_typ t = kEip2930 -> rules_from c 8 n) /\ (tx_typ t = kEip1559 -> rules_from c 9 n).
Definition signature_rule (c : chain_config) (n : N) (t : transaction) : Prop :=
  exists hs, (hs = true <-> rules_from c 1 n) /\ spec_valid_signature hs (tx_r t) (tx_s t).
Definition gas_rule (c : chain_config) (n : N) (t : transaction) : Prop :=
  exists hs ist, (hs = true <-> rules_from c 1 n) /\ (ist = true <-> rules_from c 7 n) /\
    spec_intrinsic_gas t hs ist <= tx_gas_limit t.
Definition tx_rules (c : chain_config) (n : N) (base_fee : option N) (t : transaction) : list rule :=
  [ Rule (chain_id_rule c n t) kWrongChainId;
    Rule (type_rule c n t) kUnsupportedTransactionType;
    Rule (forall b, base_fee = Some b -> b <= tx_max_fee t) kMaxFeeLessThanBase;
    Rule (tx_max_priority_fee t <= tx_max_fee t) kMaxPriorityFeeGreaterThanMax;
    Rule (signature_rule c n t) kInvalidSignature;
    Rule (gas_rule c n t) kIntrinsicGas ].

(** ** Header rules: Yellow Paper (50) and EIPs. *)
Definition london_block (c : chain_config) (n : N) : Prop := activation c 9 = Some n.
(** Limit the child's gas limit is compared with: doubled at the London block. *)
Definition spec_gas_limit_ok (c : chain_config) (h p : block_header) : Prop :=
  exists pl, (london_block c (hd_number h) -> pl = 2 * hd_gas_limit p) /\
    (~ london_block c (hd_number h) -> pl = hd_gas_limit p) /\
    hd_gas_limit h < pl + pl / 1024 /\ pl < hd_gas_limit h + pl / 1024.
Definition spec_difficulty_ok (c : chain_config) (h p : block_header) : Prop :=
  exists uncles, (uncles = true <-> hd_ommers_hash p <> kEmptyListHash) /\
    spec_difficulty c (hd_number h) (Z.of_N (hd_timestamp h) - Z.of_N (hd_timestamp p)) (Z.of_N (hd_difficulty p)) uncles
      (Z.of_N (hd_difficulty h)).
(** The characters of a text. *)
Definition text (s : string) : bytes := List.map N_of_ascii (list_ascii_of_string s).
Definition spec_dao_ok (c : chain_config) (h : block_header) : Prop :=
  forall d, cfg_dao_block c = Some d -> d <= hd_number h <= d + 9 -> hd_extra_data h = text "dao-hard-fork"%string.
Definition spec_base_fee_ok (c : chain_config) (h p : block_header) : Prop :=
  (~ rules_from c 9 (hd_number h) -> hd_base_fee h = None) /\
  (rules_from c 9 (hd_number h) ->
    (london_block c (hd_number h) -> hd_base_fee h = Some 1000000000) /\
    (~ london_block c (hd_number h) -> exists pf, hd_base_fee p = Some pf /\
       hd_base_fee h = Some (spec_next_base_fee pf (hd_gas_used p) (hd_gas_limit p)))).

(** Rules on a header given its parent; [seal] is the proof-of-work check of the header. *)
Definition header_rules_no_parent (h : block_header) : list rule :=
  [ Rule (hd_gas_used h <= hd_gas_limit h) kGasAboveLimit;
    Rule (5000 <= hd_gas_limit h) kInvalidGasLimit;
    Rule (hd_gas_limit h < 2 ^ 63) kInvalidGasLimit;
    Rule (blen (hd_extra_data h) <= 32) kExtraDataTooLong ].
Definition header_rules_parent (c : chain_config) (seal : block_header -> Prop) (h p : block_header) : list rule :=
  [ Rule (hd_timestamp p < hd_timestamp h) kInvalidTimestamp;
    Rule (spec_gas_limit_ok c h p) kInvalidGasLimit;
    Rule (spec_difficulty_ok c h p) kWrongDifficulty;
    Rule (spec_dao_ok c h) kWrongDaoExtraData;
    Rule (spec_base_fee_ok c h p) kWrongBaseFee;
    Rule (cfg_seal_engine c = kEthash -> seal h) kInvalidSeal ].
Definition header_rules (c : chain_config) (seal : block_header -> Prop) (h : block_header) (parent : option block_header) : list rule :=
  header_rules_no_parent h ++
  match parent with
  | None => [ Rule False kUnknownParent ]
  | Some p => header_rules_parent c seal h p
  end.

(** What is assumed of a stored parent (it passed the same rules) and of machine ranges. *)
Definition child_ok (c : chain_config) (h p : block_header) : Prop :=
  u64 (hd_number h) /\ u64 (hd_timestamp h) /\ u256 (hd_difficulty h) /\
  5000 <= hd_gas_limit p < 2 ^ 63 /\
  (rules_from c 9 (hd_number h) -> ~ london_block c (hd_number h) -> exists pf, hd_base_fee p = Some pf /\ pf < 2 ^ 192) /\
  hd_gas_used p <= hd_gas_limit p /\
  (forall uncles d, spec_difficulty c (hd_number h) (Z.of_N (hd_timestamp h) - Z.of_N (hd_timestamp p)) (Z.of_N (hd_difficulty p)) uncles d ->
     (d < 2 ^ 256)%Z) /\
  u256 (hd_difficulty p) /\
  (forall d, cfg_dao_block c = Some d -> d + 9 < 2 ^ 64).

(** ** Ommers: Yellow Paper section 11.1. *)
(** [kin_at st o h hash i old]: starting from mainline header [h] with hash [hash], walking to the [i]-th
    mainline block, the stored parent of [o] is the parent of that block; none of the blocks walked is [o]; [old]
    are the ommers of the blocks walked. *)
Inductive kin_at (st : chain_reader) (o : block_header) : block_header -> bytes -> nat -> list block_header -> Prop :=
| kin_here h hash body p :
    o <> h -> read_body st (hd_number h) hash = Some body ->
    get_parent st h = Some p -> get_parent st o = Some p ->
    kin_at st o h hash 1 (bd_ommers body)
| kin_up h hash body p i old :
    o <> h -> read_body st (hd_number h) hash = Some body -> get_parent st h = Some p ->
    kin_at st o p (hd_parent_hash h) i old ->
    kin_at st o h hash (S i) (bd_ommers body ++ old).

Definition spec_ommer_kin (st : chain_reader) (h p o : block_header) : Prop :=
  exists i old, (i <= 6)%nat /\ kin_at st o p (hd_parent_hash h) i old /\ ~ In o old.

(** ** Whole block, before execution. [txn_root] is the root of the transaction trie. *)
Definition all_hold (rs : list rule) : Prop := Forall (fun r => match r with Rule P _ => P end) rs.
Definition ommer_rules (c : chain_config) (seal : block_header -> Prop) (st : chain_reader) (h p o : block_header) : list rule :=
  [ Rule (all_hold (header_rules c seal o (get_parent st o))) kInvalidOmmerHeader;
    Rule (exists i old, (i <= 6)%nat /\ kin_at st o p (hd_parent_hash h) i old) kNotAnOmmer;
    Rule (spec_ommer_kin st h p o) kDuplicateOmmer ].
Definition block_rules (c : chain_config) (seal : block_header -> Prop) (keccak : bytes -> bytes) (txn_root : list transaction -> bytes)
    (st : chain_reader) (b : block) : list rule :=
  header_rules c seal (bk_header b) (get_parent st (bk_header b)) ++
  [ Rule (keccak (RLP (Lst (map header_item (bk_ommers b)))) = hd_ommers_hash (bk_header b)) kWrongOmmersHash;
    Rule (txn_root (bk_transactions b) = hd_transactions_root (bk_header b)) kWrongTransactionsRoot;
    Rule (length (bk_ommers b) <= 2)%nat kTooManyOmmers;
    Rule (NoDup (bk_ommers b)) kDuplicateOmmer ] ++
  match get_parent st (bk_header b) with
  | Some p => concat (map (ommer_rules c seal st (bk_header b) p) (bk_ommers b))
  | None => []
  end ++
  concat (map (tx_rules c (hd_number (bk_header b)) (hd_base_fee (bk_header b))) (bk_transactions b)).
