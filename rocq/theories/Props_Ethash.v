(** C71-C73: the proof of work (ethash/ethash/ethash.cpp, ethash.hpp, hash_types.hpp; chain/validity.cpp:177-196). *)
From Verif Require Import Base RlpSpec BlockModel ChainModel ChainSpec ChainProofs2 ChainLemmas.
From Verif Require Import KeccakSpec EthashSpec EthashModel EthashProofs3 EthashLemmas EthashCases.

(** *** C71: verification of the proof of work *)
(** For every history of calls, starting without a context: each answer is the one the specification gives for that
    block alone. *)
Theorem C71_history_partial : forall xs, Forall call_ok xs ->
  exists vs, verify_calls None xs = Some vs /\
  Forall2 (fun x v => exists mr, block_hashimoto (pc_number x) (pc_header x) (pc_nonce x) mr /\
                                 judged (pc_header x) (pc_mix x) (pc_nonce x) (pc_boundary x) mr v) xs vs.
Proof. exact verify_history. Qed.
Print Assumptions C71_history_partial.

Theorem C71_accepted_iff : forall header mix nonce boundary number mr v,
  block_hashimoto number header nonce mr -> judged header mix nonce boundary mr v ->
  (v = kOk <-> exists r, block_hashimoto number header nonce (mix, r) /\ be_to_N r <= be_to_N boundary).
Proof. exact accepted_iff. Qed.
Print Assumptions C71_accepted_iff.

Theorem C71_unique : forall number header nonce a b, block_hashimoto number header nonce a -> block_hashimoto number header nonce b -> a = b.
Proof. exact hashimoto_unique. Qed.
Print Assumptions C71_unique.

(** What hashing produces is what verification accepts. *)
Theorem C71_hash_verifies : forall e header nonce boundary, epoch_range e -> hash32 header -> hash32 boundary ->
  exists c r m, create_epoch_context true e = Some (Some c) /\ hash c header nonce = Some (r, m) /\
    (verify_full c header m nonce boundary = Some kOk <-> be_to_N r <= be_to_N boundary) /\
    (verify_light header m nonce boundary = Some true <-> be_to_N r <= be_to_N boundary).
Proof. exact hash_verifies. Qed.
Print Assumptions C71_hash_verifies.

Theorem C71_full_implies_light : forall e c header mix nonce boundary, context_of e c -> hash32 header -> hash32 mix -> hash32 boundary ->
  verify_full c header mix nonce boundary = Some kOk -> verify_light header mix nonce boundary = Some true.
Proof. exact full_implies_light. Qed.
Print Assumptions C71_full_implies_light.

(** Header validation with the real hash and the real proof of work: an accepted header meets every rule, the proof
    of work with the bound 2^256 / difficulty included. *)
Theorem C71_header_sound : forall h st c, cfg_ok c -> parent_ok c st h -> pow_ranges h ->
  validate_block_header (keccak_digest 256) pow_accepts h st c = Some ChainModel.kOk ->
  all_hold (header_rules c pow_seal h (get_parent st h)).
Proof. exact header_sound. Qed.
Print Assumptions C71_header_sound.

(** The converse, for a difficulty that does not divide 2^256. *)
Theorem C71_header_iff_partial : forall h st c, cfg_ok c -> parent_ok c st h -> pow_ranges h ->
  hd_difficulty h = 1 \/ ~ N.divide (hd_difficulty h) (2 ^ 256) ->
  (validate_block_header (keccak_digest 256) pow_accepts h st c = Some ChainModel.kOk <->
   all_hold (header_rules c pow_seal h (get_parent st h))).
Proof. exact header_complete. Qed.
Print Assumptions C71_header_iff_partial.

(** For a difficulty 2^k the boundary is one too small: the result 2^256 / 2^k is refused. *)
Theorem C71_boundary_refuted : forall k, 1 <= k -> k < 256 ->
  exists r, hash32 r /\ be_to_N r <= 2 ^ 256 / 2 ^ k /\ is_less_or_equal r (get_boundary_from_diff (2 ^ k)) = false.
Proof. exact boundary_short. Qed.
Print Assumptions C71_boundary_refuted.

(** Without memory for the cache the null pointer is dereferenced. *)
Theorem C71_memory_refuted : forall x, call_ok x ->
  verify_full_block false None (pc_number x) (pc_header x) (pc_mix x) (pc_nonce x) (pc_boundary x) = None.
Proof. exact no_memory. Qed.
Print Assumptions C71_memory_refuted.

Example C71_call : call_ok sample_call.
Proof. exact sample_call_ok. Qed.
Example C71_some_accepted : forall number header nonce, epoch_range (number / EPOCH_LENGTH) -> hash32 header -> nonce < 2 ^ 64 ->
  exists mix, pow_accepts number header mix nonce 1 = true.
Proof. exact some_accepted. Qed.
Example C71_difficulty : 131073 = 1 \/ ~ N.divide 131073 (2 ^ 256).
Proof. exact next_difficulty. Qed.
Example C71_min_difficulty : N.divide 131072 (2 ^ 256).
Proof. exact min_difficulty_divides. Qed.

(** *** C72: sizes *)
Theorem C72_largest_partial : forall ub, 3 <= ub -> ub < 2 ^ 32 ->
  exists p, find_largest_unsigned_prime ub = Some p /\ largest_prime ub p.
Proof. exact largest_ok. Qed.
Print Assumptions C72_largest_partial.

Theorem C72_cache_partial : forall e, e < 2 ^ 21 - 2 ^ 7 ->
  exists n, calculate_light_cache_num_items e = Some n /\ cache_items e n.
Proof. exact cache_items_ok. Qed.
Print Assumptions C72_cache_partial.

Theorem C72_dataset_partial : forall e, e < 2 ^ 16 - 2 ^ 7 ->
  exists n, calculate_full_dataset_num_items e = Some n /\ dataset_items e n.
Proof. exact dataset_items_ok. Qed.
Print Assumptions C72_dataset_partial.
(** The sizes of epoch 0 in the specification: 262139 cache items of 64 bytes, 8388593 dataset items of 128 bytes. *)
Example C72_case : find_largest_unsigned_prime 100 = Some 97 /\ calculate_light_cache_num_items 0 = Some 262139 /\ calculate_full_dataset_num_items 0 = Some 8388593.
Proof. vm_compute. repeat split; reflexivity. Qed.

Theorem C72_two_refuted : find_largest_unsigned_prime 2 = Some 1 /\ largest_prime 2 2.
Proof. exact two_refuted. Qed.
Print Assumptions C72_two_refuted.

Theorem C72_wrap_refuted : calculate_full_dataset_num_items 65408 = Some 0 /\ ~ dataset_items 65408 0.
Proof. exact wrapped_size. Qed.
Print Assumptions C72_wrap_refuted.

(** *** C73: epoch of a seed *)
Theorem C73_answers_partial : forall next seeds, N.of_nat (length seeds) < 2 ^ 31 ->
  Forall2 (fun seed r => match r with Some n => seed_n next n = seed | None => forall n, n < 30000 -> seed_n next n <> seed end)
    seeds (seed_calls next no_cache seeds).
Proof. exact seed_history. Qed.
Print Assumptions C73_answers_partial.

Theorem C73_epoch_partial : forall next seeds i n r, N.of_nat (length seeds) < 2 ^ 31 -> n < 30000 ->
  (forall m, seed_n next m = seed_n next n -> m = n) ->
  nth_error seeds i = Some (seed_n next n) -> nth_error (seed_calls next no_cache seeds) i = Some r -> r = Some n.
Proof. exact seed_answer. Qed.
Print Assumptions C73_epoch_partial.

(** Whether the seed of epoch 30000 is found depends on the calls before. *)
Theorem C73_history_refuted : forall next,
  (forall i j, i <= 30000 -> j <= 30000 -> seed_n next i = seed_n next j -> i = j) ->
  seed_calls next no_cache [seed_n next 30000] = [None] /\
  seed_calls next no_cache [seed_n next 29999; seed_n next 30000] = [Some 29999; Some 30000].
Proof. exact history_matters. Qed.
Print Assumptions C73_history_refuted.

Example C73_seed : forall n, seed_n (keccak_digest 256) n = seed_hash (N.to_nat n).
Proof. exact seed_is_hash. Qed.
Example C73_distinct : forall i j, seed_n longer i = seed_n longer j -> i = j.
Proof. exact longer_distinct. Qed.
