(** Caches and chain rules: C14 - C23. *)
From Coq Require Import String.
From Verif Require Import Base BaseFacts RlpSpec RlpModel EcdsaModel TxModel BlockModel BlockSpec LruModel LruSpec LruProofs ChainModel ChainSpec ChainProofs ChainProofs2 ChainLemmas.
Open Scope list_scope.

(** *** C14: LRU cache *)
(** No operation sequence reaches undefined behaviour (dangling iterator, empty list). *)
Theorem C14_total : forall K V (key_dec : forall a b : K, {a = b} + {a <> b}) cap (ops : list (op K V)),
  exists c tr, run key_dec (lru_new cap, []) ops = Some (c, tr).
Proof. exact @lru_run_total. Qed.
Print Assumptions C14_total.

(** After any history, a get returns the last value put for the key if the key is among the [cap] most recently
    used keys since the last clear, and nothing otherwise. *)
Theorem C14_get : forall K V (key_dec : forall a b : K, {a = b} + {a <> b}) cap (ops : list (op K V)) c tr k,
  run key_dec (lru_new cap, []) ops = Some (c, tr) ->
  exists c', lru_get key_dec c k = Some (expected key_dec cap tr k, c').
Proof. exact @lru_run_get. Qed.
Print Assumptions C14_get.

Theorem C14_size : forall K V (key_dec : forall a b : K, {a = b} + {a <> b}) cap (ops : list (op K V)) c tr,
  run key_dec (lru_new cap, []) ops = Some (c, tr) -> lru_size c = Nat.min cap (length (recency key_dec tr)).
Proof. exact @lru_run_size. Qed.
Print Assumptions C14_size.

(** The trace is the history itself, with the observed results. *)
Theorem C14_trace : forall K V (key_dec : forall a b : K, {a = b} + {a <> b}) s (ops : list (op K V)) c tr,
  run key_dec s ops = Some (c, tr) -> rev (map op_of tr) = rev (map op_of (snd s)) ++ ops.
Proof. exact @run_trace. Qed.
Print Assumptions C14_trace.

Example C14_witness : exists c, run N.eq_dec (lru_new 2, []) [Put 1 10; Put 2 20; Get 1; Put 3 30; Get 2; Put 1 11] =
    Some (c, [EPut 1 11; EMiss 2; EPut 3 30; EHit 1 10; EPut 2 20; EPut 1 10]) /\
  expected N.eq_dec 2 [EPut 1 11; EMiss 2; EPut 3 30; EHit 1 10; EPut 2 20; EPut 1 10] 1 = Some 11.
Proof. eexists. split; reflexivity. Qed.

(** *** C15: analysis cache *)
Theorem C15_total : forall K V (key_dec : forall a b : K, {a = b} + {a <> b}) cap (ops : list (aop K V)),
  exists a, arun key_dec (acache_new cap) ops = Some a /\ (lru_size (ac_cache a) <= cap)%nat.
Proof. exact @acache_total. Qed.
Print Assumptions C15_total.

(** A hit comes from a put with the same key and revision, after which the key was not overwritten and
    no put used another revision. *)
Theorem C15_sound : forall K V (key_dec : forall a b : K, {a = b} + {a <> b}) cap (ops : list (aop K V)) a k r v a',
  arun key_dec (acache_new cap) ops = Some a -> acache_get key_dec a k r = Some (Some v, a') ->
  exists older newer, ops = older ++ APut k v r :: newer /\
    forall k' v' r', In (APut k' v' r') newer -> k' <> k /\ r' = r.
Proof. exact @acache_sound. Qed.
Print Assumptions C15_sound.

Theorem C15_put_get : forall K V (key_dec : forall a b : K, {a = b} + {a <> b}) cap (ops : list (aop K V)) a k v r,
  (0 < cap)%nat -> arun key_dec (acache_new cap) (ops ++ [APut k v r]) = Some a ->
  exists a', acache_get key_dec a k r = Some (Some v, a').
Proof. exact @acache_put_get. Qed.
Print Assumptions C15_put_get.

Example C15_witness : exists a, arun N.eq_dec (acache_new 2) [APut 1 10 7; APut 2 20 7; AGet 1 8; APut 3 30 7] = Some a /\
  (exists a', acache_get N.eq_dec a 2 7 = Some (Some 20, a')) /\ acache_get N.eq_dec a 2 8 = Some (None, a).
Proof. eexists. split; [reflexivity|]. split; [eexists|]; reflexivity. Qed.

(** *** C16: intrinsic gas *)
Theorem C16_intrinsic_gas : forall t homestead istanbul, tx_sizes_ok t ->
  intrinsic_gas t homestead istanbul = spec_intrinsic_gas t homestead istanbul /\ intrinsic_gas t homestead istanbul < 2 ^ 128.
Proof. exact intrinsic_gas_spec. Qed.
Print Assumptions C16_intrinsic_gas.

Theorem C16_monotone : forall t d al homestead istanbul, tx_sizes_ok (tx_grow t d al) ->
  intrinsic_gas t homestead istanbul <= intrinsic_gas (tx_grow t d al) homestead istanbul.
Proof. exact intrinsic_gas_mono. Qed.
Print Assumptions C16_monotone.

Example C16_witness : tx_sizes_ok w_tx /\ intrinsic_gas w_tx true true = 21020 /\
  intrinsic_gas (mkTx kEip2930 1 2 2 60000 None 4 [0; 5] false (Some 5) 6 7 [mkEntry (repeat 1 20) [repeat 2 32; repeat 3 32]; mkEntry (repeat 1 20) []] None) true false
  = 21000 + 32000 + 4 + 68 + 2 * 2400 + 2 * 1900.
Proof. repeat split. Qed.

(** *** C17: difficulty *)
Theorem C17_difficulty : forall c n ts pd pts uncles d, u64 ts -> pts <= ts -> u256 pd ->
  spec_difficulty c n (Z.of_N ts - Z.of_N pts) (Z.of_N pd) uncles d -> (d < 2 ^ 256)%Z ->
  Z.of_N (canonical_difficulty n ts pd pts uncles c) = d.
Proof. exact canonical_difficulty_spec. Qed.
Print Assumptions C17_difficulty.

Theorem C17_rules_total : forall c n dt pd uncles, exists d, spec_difficulty c n dt pd uncles d.
Proof. exact spec_difficulty_total. Qed.
Print Assumptions C17_rules_total.

Theorem C17_minimum : forall c n ts pd pts uncles, kMinDifficulty <= canonical_difficulty n ts pd pts uncles c.
Proof. exact difficulty_min. Qed.
Print Assumptions C17_minimum.

Theorem C17_in_range : forall c n dt pd uncles d, (0 <= dt)%Z -> (0 <= pd < 2 ^ 254)%Z -> n < 25000000 ->
  spec_difficulty c n dt pd uncles d -> (d < 2 ^ 256)%Z.
Proof. exact spec_difficulty_fits. Qed.
Print Assumptions C17_in_range.

Example C17_witness : canonical_difficulty 9200001 1578000010 2463413814114729 1578000000 false kMainnetConfig = 2463413814114729 + 1 /\
  canonical_difficulty 100 1050 (2 ^ 34) 1000 false kMainnetConfig = 2 ^ 34 - 2 ^ 23 /\
  canonical_difficulty 4370000 2000 (2 ^ 34) 1000 true kMainnetConfig = 2 ^ 34 - 99 * 2 ^ 23 + 2 ^ 11.
Proof. repeat split. Qed.

(** *** C18: base fee *)
Theorem C18_base_fee : forall h p c, cfg_ok c ->
  2 <= hd_gas_limit p -> hd_gas_used p <= hd_gas_limit p < 2 ^ 64 ->
  (rules_from c 9 (hd_number h) -> ~ london_block c (hd_number h) -> exists pf, hd_base_fee p = Some pf /\ pf < 2 ^ 192) ->
  exists e, expected_base_fee_per_gas h p c = Some e /\
    (~ rules_from c 9 (hd_number h) -> e = None) /\
    (rules_from c 9 (hd_number h) -> london_block c (hd_number h) -> e = Some 1000000000) /\
    (rules_from c 9 (hd_number h) -> ~ london_block c (hd_number h) ->
       exists pf, hd_base_fee p = Some pf /\ e = Some (spec_next_base_fee pf (hd_gas_used p) (hd_gas_limit p))).
Proof. exact expected_base_fee_spec. Qed.
Print Assumptions C18_base_fee.

Theorem C18_bounded_change : forall fee used limit, 2 <= limit -> used <= limit ->
  let t := limit / 2 in let f := spec_next_base_fee fee used limit in
  (used = t -> f = fee) /\ (t < used -> fee < f <= fee + N.max 1 (fee * (t + 1) / t / 8)) /\ (used < t -> f <= fee <= f + fee / 8).
Proof. exact next_fee_bounds. Qed.
Print Assumptions C18_bounded_change.

Theorem C18_bounded_even : forall fee used limit, 2 <= limit -> N.even limit = true -> used <= limit ->
  spec_next_base_fee fee used limit <= fee + N.max 1 (fee / 8).
Proof. exact next_fee_even. Qed.
Print Assumptions C18_bounded_even.

Example C18_witness : spec_next_base_fee 1000000000 20000000 30000000 = 1041666666 /\ spec_next_base_fee 1000000000 0 30000000 = 875000000 /\
  spec_next_base_fee 7 30000000 30000000 = 8 /\ 1000 + N.max 1 (1000 / 8) < spec_next_base_fee 1000 5 5.
Proof. repeat split. Qed.

(** *** C19: fork schedule *)
Theorem C19_revision_latest : forall c n,
  revision c n <= 10 /\ activated c (revision c n) n /\ (forall r, r <= 10 -> activated c r n -> r <= revision c n).
Proof. exact (fun c n => conj (revision_le c n) (conj (revision_activated c n) (revision_latest c n))). Qed.
Print Assumptions C19_revision_latest.

Theorem C19_revision_monotone : forall c n m, n <= m -> revision c n <= revision c m.
Proof. exact revision_mono. Qed.
Print Assumptions C19_revision_monotone.

Theorem C19_revision_block : forall c r, length (cfg_fork_blocks c) = 10%nat -> r <= 10 -> revision_block c r = Some (activation c r).
Proof. exact revision_block_activation. Qed.
Print Assumptions C19_revision_block.

Theorem C19_set_revision_block : forall c r b r', length (cfg_fork_blocks c) = 10%nat -> 0 < r <= 10 -> r' <= 10 ->
  activation (set_revision_block c r b) r' = if r' =? r then b else activation c r'.
Proof. exact set_revision_block_activation. Qed.
Print Assumptions C19_set_revision_block.

Theorem C19_set_revision_block_rest : forall c r b, set_revision_block c 0 b = c /\
  cfg_chain_id (set_revision_block c r b) = cfg_chain_id c /\ cfg_seal_engine (set_revision_block c r b) = cfg_seal_engine c /\
  cfg_muir_glacier (set_revision_block c r b) = cfg_muir_glacier c /\ cfg_dao_block (set_revision_block c r b) = cfg_dao_block c /\
  length (cfg_fork_blocks (set_revision_block c r b)) = length (cfg_fork_blocks c).
Proof. exact set_revision_block_rest. Qed.
Print Assumptions C19_set_revision_block_rest.

Theorem C19_json_round_trip : forall c, cfg_ok c -> from_json (to_json c) = JConfig c.
Proof. exact from_to_json. Qed.
Print Assumptions C19_json_round_trip.

Theorem C19_json_yields_valid_config : forall j c, from_json j = JConfig c -> cfg_ok c.
Proof. exact from_json_ok. Qed.
Print Assumptions C19_json_yields_valid_config.

(** Comparing configs through their JSON objects is comparing the configs. *)
Theorem C19_equality : forall a b, cfg_ok a -> cfg_ok b -> (forall k, jfind (to_json a) k = jfind (to_json b) k) -> a = b.
Proof. exact to_json_inj. Qed.
Print Assumptions C19_equality.

Example C19_witness : cfg_ok kMainnetConfig /\ revision kMainnetConfig 7280000 = EVMC_PETERSBURG /\ revision kMainnetConfig 7279999 = EVMC_BYZANTIUM /\
  from_json (to_json kMainnetConfig) = JConfig kMainnetConfig.
Proof. repeat split; repeat constructor. Qed.

(** *** C20: transaction pre-validation *)
(** For signatures with r below the group order (and s too before Homestead) the verdict is that of the
    first violated rule. Missing for the full property: r at or above the order is not rejected, see below. *)
Theorem C20_verdict_partial : forall t n c base_fee, tx_sizes_ok t -> sig_in_range c n t ->
  verdict (tx_rules c n base_fee t) (pre_validate_transaction t n c base_fee).
Proof. exact pre_validate_verdict. Qed.
Print Assumptions C20_verdict_partial.

Theorem C20_valid_accepted : forall t n c base_fee, tx_sizes_ok t ->
  verdict (tx_rules c n base_fee t) kOk -> pre_validate_transaction t n c base_fee = kOk.
Proof. exact pre_validate_complete. Qed.
Print Assumptions C20_valid_accepted.

Theorem C20_verdict_unique : forall rules a b, verdict rules a -> verdict rules b -> a = b.
Proof. exact verdict_det. Qed.
Print Assumptions C20_verdict_unique.

Theorem C20_signature_rule_refuted : pre_validate_transaction bad_sig_tx 100 kGoerliConfig None = kOk /\
  ~ spec_valid_signature true (tx_r bad_sig_tx) (tx_s bad_sig_tx) /\ ~ verdict (tx_rules kGoerliConfig 100 None bad_sig_tx) kOk.
Proof. exact bad_signature_accepted. Qed.
Print Assumptions C20_signature_rule_refuted.

Example C20_witness : tx_sizes_ok w_tx /\ sig_in_range kGoerliConfig 100 w_tx /\ pre_validate_transaction w_tx 100 kGoerliConfig None = kOk /\
  pre_validate_transaction w_tx 100 kMainnetConfig None = kWrongChainId.
Proof. repeat split. right. reflexivity. Qed.

(** *** C21: header validation *)
Theorem C21_verdict : forall keccak verify_full h st c, cfg_ok c -> (forall p, get_parent st h = Some p -> child_ok c h p) ->
  exists r, validate_block_header keccak verify_full h st c = Some r /\
    verdict (header_rules c (seal_ok keccak verify_full) h (get_parent st h)) r.
Proof. exact validate_header_verdict. Qed.
Print Assumptions C21_verdict.

Theorem C21_ok_iff : forall keccak verify_full h st c, cfg_ok c -> parent_ok c st h ->
  (validate_block_header keccak verify_full h st c = Some kOk <-> all_hold (header_rules c (seal_ok keccak verify_full) h (get_parent st h))).
Proof. exact header_verdict_ok. Qed.
Print Assumptions C21_ok_iff.
Example C21_witness : cfg_ok kGoerliConfig /\ parent_ok kGoerliConfig w_reader (bk_header w_block) /\ get_parent w_reader (bk_header w_block) <> None
  /\ validate_block_header w_keccak w_verify (bk_header w_block) w_reader kGoerliConfig = Some kOk.
Proof. split; [exact goerli_ok|]. split; [exact (proj1 (proj1 w_block_ok))|]. split; [discriminate|reflexivity]. Qed.

(** *** C22: ommers and the whole block *)
Theorem C22_ommer_check : forall st h p o,
  (let '(kin, old) := is_kin o p (hd_parent_hash h) 6 st [] in kin && negb (existsb (fun oo => header_eqb oo o) old)) = true
  <-> spec_ommer_kin st h p o.
Proof. exact ommer_check_iff. Qed.
Print Assumptions C22_ommer_check.

Theorem C22_block_verdict : forall keccak verify_full txn_root b st c, cfg_ok c -> block_ok c st b ->
  exists r, pre_validate_block keccak verify_full txn_root b st c = Some r /\
    verdict (block_rules c (seal_ok keccak verify_full) keccak txn_root st b) r.
Proof. exact pre_validate_block_verdict. Qed.
Print Assumptions C22_block_verdict.

Example C22_witness : cfg_ok kGoerliConfig /\ block_ok kGoerliConfig w_reader w_block /\ bk_ommers w_block <> [] /\
  pre_validate_block w_keccak w_verify w_root w_block w_reader kGoerliConfig = Some kOk.
Proof. split; [exact goerli_ok|]. split; [exact (proj1 w_block_ok)|]. split; [discriminate|exact (proj2 w_block_ok)]. Qed.

(** *** C23: signatures *)
Theorem C23_valid_accepted : forall r s homestead, spec_valid_signature homestead r s -> is_valid_signature r s homestead = true.
Proof. exact is_valid_signature_complete. Qed.
Print Assumptions C23_valid_accepted.

(** What is accepted exactly; it differs from the specification by "or" for "and" on the upper bounds. *)
Theorem C23_accepted_partial : forall r s homestead, is_valid_signature r s homestead = true <->
  0 < r /\ 0 < s /\ (r < secp256k1_order \/ s < secp256k1_order) /\ (homestead = true -> s <= secp256k1_order / 2).
Proof. exact is_valid_signature_char. Qed.
Print Assumptions C23_accepted_partial.

Theorem C23_range_refuted : is_valid_signature secp256k1_order 7 true = true /\ ~ spec_valid_signature true secp256k1_order 7.
Proof. exact (conj eq_refl (proj1 (proj2 bad_signature_accepted))). Qed.
Print Assumptions C23_range_refuted.

Theorem C23_v_round_trip : forall odd c, match c with Some i => 2 * i + 36 < 2 ^ 256 | None => True end ->
  v_to_y_parity_and_chain_id (y_parity_and_chain_id_to_v odd c) = (odd, c).
Proof. exact v_roundtrip. Qed.
Print Assumptions C23_v_round_trip.

Theorem C23_v_inverse : forall v, u256 v -> let '(odd, c) := v_to_y_parity_and_chain_id v in y_parity_and_chain_id_to_v odd c = v.
Proof. exact v_inverse. Qed.
Print Assumptions C23_v_inverse.

Theorem C23_v_eip155 : forall v odd c, 35 <= v -> u256 v -> v_to_y_parity_and_chain_id v = (odd, c) ->
  exists i, c = Some i /\ v = 2 * i + 35 + (if odd then 1 else 0).
Proof. exact v_good. Qed.
Print Assumptions C23_v_eip155.

(** v below 35 other than 27 and 28 is not rejected, but yields a chain id no 64-bit chain has. *)
Theorem C23_bad_v_chain_id_partial : forall v odd c, v < 35 -> v <> 27 -> v <> 28 -> v_to_y_parity_and_chain_id v = (odd, c) ->
  exists i, c = Some i /\ 2 ^ 254 < i.
Proof. exact v_bad. Qed.
Print Assumptions C23_bad_v_chain_id_partial.

Example C23_witness : v_to_y_parity_and_chain_id 37 = (false, Some 1) /\ v_to_y_parity_and_chain_id 28 = (true, None) /\
  is_valid_signature 1 (secp256k1_order / 2) true = true /\ is_valid_signature 1 (secp256k1_order / 2 + 1) true = false.
Proof. repeat split. Qed.
