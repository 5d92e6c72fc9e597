(** Model of Ethash: ethash/ethash/ethash.cpp, ethash.hpp and hash_types.hpp.

    A union [hash256], [hash512] or [hash1024] is its bytes; [word32s] and [word64s] are its other views on a
    little-endian host, where [le::uint32], [le::uint64] and [le::uint32s] are the identity and [be::uint64] swaps the bytes
    (hash_types.hpp:20-75). [None] is undefined behaviour: a division by zero, an access outside of an array, a null
    pointer. *)
From Verif Require Import Base KeccakModel.

Notation "'let?' x := a 'in' b" := (match a with Some x => b | None => None end)
  (at level 200, x pattern, a at level 100, b at level 200).

Definition add32 (a b : N) : N := (a + b) mod 2 ^ 32.
Definition sub32 (a b : N) : N := (a + 2 ^ 32 - b) mod 2 ^ 32.
Definition mul32 (a b : N) : N := (a * b) mod 2 ^ 32.
Definition mod32 (a b : N) : option N := if b =? 0 then None else Some (a mod b).

(** hash_types.hpp:20-39. *)
Fixpoint word32s (bs : bytes) : list N :=
  match bs with
  | b0 :: b1 :: b2 :: b3 :: r => le_to_N [b0; b1; b2; b3] :: word32s r
  | _ => []
  end.
Fixpoint word64s (bs : bytes) : list N :=
  match bs with
  | b0 :: b1 :: b2 :: b3 :: b4 :: b5 :: b6 :: b7 :: r => le_to_N [b0; b1; b2; b3; b4; b5; b6; b7] :: word64s r
  | _ => []
  end.
Definition of_word32s (ws : list N) : bytes := concat (map (le_bytes 4) ws).
Definition of_word64s (ws : list N) : bytes := concat (map (le_bytes 8) ws).
(** Two arrays of the same size traversed together. *)
Definition both (f : N -> N -> N) (a b : list N) : list N := map (fun p => f (fst p) (snd p)) (combine a b).

(** hash_types.hpp:86-94, [is_less_or_equal], with [be::uint64] of a little-endian host. *)
Definition bswap64 (w : N) : N := be_to_N (le_bytes 8 w).
Fixpoint less_or_equal (a b : list N) : bool :=
  match a, b with
  | x :: a', y :: b' =>
    if bswap64 y <? bswap64 x then false else if bswap64 x <? bswap64 y then true else less_or_equal a' b'
  | _, _ => true
  end.
Definition is_less_or_equal (a b : bytes) : bool := less_or_equal (word64s a) (word64s b).
(** hash_types.hpp:96. *)
Definition is_equal (a b : bytes) : bool := bytes_eqb a b.

(** ethash.hpp:22-34. *)
Definition epoch_length : N := 30000.
Definition light_cache_item_size : N := 64.
Definition num_dataset_accesses : nat := 64.
Definition light_cache_init_size : N := 2 ^ 24.
Definition light_cache_growth : N := 2 ^ 17.
Definition light_cache_rounds : nat := 3.
Definition full_dataset_init_size : N := 2 ^ 30.
Definition full_dataset_growth : N := 2 ^ 23.
Definition full_dataset_item_parents : nat := 256.
Definition fnv_prime : N := 0x01000193.

(** ethash.hpp:36-41. *)
Record epoch_context := mkContext {
  ec_epoch_number : N;
  ec_light_cache_num_items : N;
  ec_full_dataset_num_items : N;
  ec_light_cache : list bytes;
}.

(** ethash.cpp:18-19, 20-26 and 27-33. *)
Definition fnv1 (u v : N) : N := N.lxor (mul32 u fnv_prime) v.
Definition fnv1_512 (a b : bytes) : bytes := of_word32s (both fnv1 (word32s a) (word32s b)).
Definition xor_512 (x y : bytes) : bytes := of_word64s (both N.lxor (word64s x) (word64s y)).

(** [mix.word32s[0] ^= w]. *)
Definition xor_first (mix : bytes) (w : N) : bytes :=
  match word32s mix with
  | a :: r => of_word32s (N.lxor a w :: r)
  | [] => mix
  end.

(** ethash.cpp:42-47, the constructor of [item_state]; the result is [mix]. *)
Definition item_init (c : epoch_context) (index : N) : option bytes :=
  let? i := mod32 index (ec_light_cache_num_items c) in
  let? mix := nth_error (ec_light_cache c) (N.to_nat i) in
  keccak512 (xor_first mix index).

(** ethash.cpp:49-54, [item_state::update]. *)
Definition item_update (c : epoch_context) (seed : N) (round : nat) (mix : bytes) : option bytes :=
  let? w := nth_error (word32s mix) (round mod 16) in
  let? parent_index := mod32 (fnv1 (N.lxor seed (N.of_nat round)) w) (ec_light_cache_num_items c) in
  let? parent := nth_error (ec_light_cache c) (N.to_nat parent_index) in
  Some (fnv1_512 mix parent).

(** ethash.cpp:71-74: the loop over the parents of both items, from round [i]. *)
Fixpoint item_rounds (count i : nat) (c : epoch_context) (seed0 seed1 : N) (mix0 mix1 : bytes) : option (bytes * bytes) :=
  match count with
  | O => Some (mix0, mix1)
  | S k =>
    let? mix0' := item_update c seed0 i mix0 in
    let? mix1' := item_update c seed1 i mix1 in
    item_rounds k (i + 1) c seed0 seed1 mix0' mix1'
  end.

(** ethash.cpp:67-77, with [item_state::final] (56). *)
Definition calculate_dataset_item_1024 (c : epoch_context) (index : N) : option bytes :=
  let index0 := mul32 index 2 in
  let index1 := add32 (mul32 index 2) 1 in
  let? mix0 := item_init c index0 in
  let? mix1 := item_init c index1 in
  let? (mix0', mix1') := item_rounds full_dataset_item_parents 0 c index0 index1 mix0 mix1 in
  let? h0 := keccak512 mix0' in
  let? h1 := keccak512 mix1' in
  Some (h0 ++ h1).

(** ethash.cpp:82-85: the items after the first. *)
Fixpoint cache_chain (count : nat) (previous : bytes) : option (list bytes) :=
  match count with
  | O => Some []
  | S k =>
    let? next := keccak512 previous in
    let? r := cache_chain k next in
    Some (next :: r)
  end.

(** [cache[i] = x]. *)
Fixpoint store_item (cache : list bytes) (i : nat) (x : bytes) : option (list bytes) :=
  match cache, i with
  | [], _ => None
  | _ :: r, O => Some (x :: r)
  | a :: r, S j => let? r' := store_item r j x in Some (a :: r')
  end.

(** ethash.cpp:88-97: the loop over the items, from item [i]. *)
Fixpoint cache_pass (count : nat) (i : N) (num_items : N) (cache : list bytes) : option (list bytes) :=
  match count with
  | O => Some cache
  | S k =>
    let? ci := nth_error cache (N.to_nat i) in
    let? t := nth_error (word32s ci) 0 in
    let? v := mod32 t num_items in
    let? w := mod32 (add32 num_items (sub32 i 1)) num_items in
    let? cv := nth_error cache (N.to_nat v) in
    let? cw := nth_error cache (N.to_nat w) in
    let? h := keccak512 (xor_512 cv cw) in
    let? cache' := store_item cache (N.to_nat i) h in
    cache_pass k (i + 1) num_items cache'
  end.
Fixpoint cache_passes (rounds : nat) (num_items : N) (cache : list bytes) : option (list bytes) :=
  match rounds with
  | O => Some cache
  | S k => let? cache' := cache_pass (N.to_nat num_items) 0 num_items cache in cache_passes k num_items cache'
  end.

(** ethash.cpp:79-99, [build_light_cache] with [keccak512] as the hash function (158). For [num_items] = 0 the first
    item is written behind the end of the array. *)
Definition build_light_cache (num_items : N) (seed : bytes) : option (list bytes) :=
  if num_items =? 0 then None else
  let? item := keccak512 seed in
  let? r := cache_chain (N.to_nat (num_items - 1)) item in
  cache_passes light_cache_rounds num_items (item :: r).

(** ethash.cpp:101-107. *)
Definition hash_seed (header : bytes) (nonce : N) : option bytes := keccak512 (header ++ le_bytes 8 nonce).

(** ethash.cpp:116-121: the loop over the accesses, from access [i]; [mix] as its words. *)
Fixpoint mix_accesses (count i : nat) (c : epoch_context) (seed_init : N) (mix : list N) : option (list N) :=
  match count with
  | O => Some mix
  | S k =>
    let? m := nth_error mix (i mod 32) in
    let? p := mod32 (fnv1 (N.lxor (N.of_nat i) seed_init) m) (ec_full_dataset_num_items c) in
    let? newdata := calculate_dataset_item_1024 c p in
    mix_accesses k (i + 1) c seed_init (both fnv1 mix (word32s newdata))
  end.

(** ethash.cpp:124-129. *)
Fixpoint mix_compress (mix : list N) : list N :=
  match mix with
  | a :: b :: c :: d :: r => fnv1 (fnv1 (fnv1 a b) c) d :: mix_compress r
  | _ => []
  end.

(** ethash.cpp:109-132. *)
Definition hash_mix (c : epoch_context) (seed : bytes) : option bytes :=
  let? seed_init := nth_error (word32s seed) 0 in
  let? mix := mix_accesses num_dataset_accesses 0 c seed_init (word32s seed ++ word32s seed) in
  Some (of_word32s (mix_compress mix)).

(** ethash.cpp:134-139. *)
Definition hash_final (seed mix : bytes) : option bytes := keccak256 (seed ++ mix).

(** ethash.cpp:172-189. [fuel] bounds the number of iterations; running out of it is excluded by the proofs. *)
Fixpoint no_odd_factor (fuel : nat) (number d : N) : option bool :=
  match fuel with
  | O => None
  | S k => if number <? d * d then Some true
           else if number mod d =? 0 then Some false
           else no_odd_factor k number (d + 2)
  end.
Definition is_unsigned_odd_prime (number : N) : option bool :=
  if N.land number 1 =? 0 then Some false else no_odd_factor (S (N.to_nat number)) number 3.

(** ethash.cpp:200-202. *)
Fixpoint descend (fuel : nat) (n : N) : option N :=
  match fuel with
  | O => None
  | S k =>
    let? p := is_unsigned_odd_prime n in
    if p then Some n else descend k (sub32 n 2)
  end.
(** ethash.cpp:191-204. *)
Definition find_largest_unsigned_prime (upper_bound : N) : option N :=
  if upper_bound <? 2 then Some 0
  else
    let n := if N.land upper_bound 1 =? 0 then upper_bound - 1 else upper_bound in
    descend (S (N.to_nat n)) n.

(** ethash.cpp:206-216 and 218-228. *)
Definition calculate_light_cache_num_items (epoch_number : N) : option N :=
  find_largest_unsigned_prime (add32 (light_cache_init_size / 64) (mul32 epoch_number (light_cache_growth / 64))).
Definition calculate_full_dataset_num_items (epoch_number : N) : option N :=
  find_largest_unsigned_prime (add32 (full_dataset_init_size / 128) (mul32 epoch_number (full_dataset_growth / 128))).

(** ethash.cpp:230-236. *)
Fixpoint seed_from (count : nat) (seed : bytes) : option bytes :=
  match count with
  | O => Some seed
  | S k => let? s := keccak256 seed in seed_from k s
  end.
Definition calculate_seed_from_epoch (epoch_number : N) : option bytes := seed_from (N.to_nat epoch_number) (zeros 32).

(** ethash.cpp:141-163 and 311-313. [memory] says whether [calloc] succeeds; the inner option is the pointer. *)
Definition create_epoch_context (memory : bool) (epoch_number : N) : option (option epoch_context) :=
  let? light_cache_num_items := calculate_light_cache_num_items epoch_number in
  let? full_dataset_num_items := calculate_full_dataset_num_items epoch_number in
  if memory then
    let? epoch_seed := calculate_seed_from_epoch epoch_number in
    let? light_cache := build_light_cache light_cache_num_items epoch_seed in
    Some (Some (mkContext epoch_number light_cache_num_items full_dataset_num_items light_cache))
  else Some None.

(** ethash.cpp:273-277; the result is (final hash, mix hash). *)
Definition hash (c : epoch_context) (header : bytes) (nonce : N) : option (bytes * bytes) :=
  let? seed := hash_seed header nonce in
  let? mix_hash := hash_mix c seed in
  let? final_hash := hash_final seed mix_hash in
  Some (final_hash, mix_hash).

(** ethash.cpp:279-284. *)
Definition verify_light (header_hash mix_hash : bytes) (nonce : N) (boundary : bytes) : option bool :=
  let? seed := hash_seed header_hash nonce in
  let? final := hash_final seed mix_hash in
  Some (is_less_or_equal final boundary).

(** ethash.hpp:48-52. *)
Inductive verification_result := kOk | kInvalidNonce | kInvalidMixHash.

(** ethash.cpp:286-298. *)
Definition verify_full (c : epoch_context) (header_hash mix_hash : bytes) (nonce : N) (boundary : bytes) : option verification_result :=
  let? seed := hash_seed header_hash nonce in
  let? final := hash_final seed mix_hash in
  if negb (is_less_or_equal final boundary) then Some kInvalidNonce
  else
    let? expected_mix_hash := hash_mix c seed in
    if negb (is_equal mix_hash expected_mix_hash) then Some kInvalidMixHash else Some kOk.

(** ethash.cpp:300-309: [cached] is the static variable [epoch_context], which the call may replace. *)
Definition verify_full_block (memory : bool) (cached : option epoch_context) (block_num : N) (header_hash mix_hash : bytes)
    (nonce : N) (boundary : bytes) : option (verification_result * option epoch_context) :=
  let epoch_number := (block_num / epoch_length) mod 2 ^ 32 in
  let? cached' :=
    match cached with
    | Some c => if ec_epoch_number c =? epoch_number then Some cached else create_epoch_context memory epoch_number
    | None => create_epoch_context memory epoch_number
    end in
  let? c := cached' in
  let? r := verify_full c header_hash mix_hash nonce boundary in
  Some (r, cached').

(** ethash.cpp:315-328. *)
Definition get_boundary_from_diff (difficulty : N) : bytes :=
  let dividend := 2 ^ 256 - 1 in
  if 1 <? difficulty then be_fixed 32 (dividend / difficulty) else be_fixed 32 dividend.

(** ethash.cpp:238-271. The two static variables are the state [cached]: the number, if it has a value, and the seed.
    [next] is [keccak256]. *)
Section FromSeed.
  Variable next : bytes -> bytes.
  Fixpoint search (tries : nat) (i : N) (cached_seed seed : bytes) : option N * bytes :=
    match tries with
    | O => (None, cached_seed)
    | S k => if is_equal cached_seed seed then (Some i, cached_seed) else search k (i + 1) (next cached_seed) seed
    end.
  Definition num_tries : nat := N.to_nat 30000.
  Definition calculate_epoch_from_seed (cached : option N * bytes) (seed : bytes) : option N * (option N * bytes) :=
    let again := let r := search num_tries 0 (zeros 32) seed in (fst r, r) in
    match fst cached with
    | Some n =>
      if is_equal seed (snd cached) then (Some n, cached)
      else
        let nx := next (snd cached) in
        if is_equal nx seed then (Some (add32 n 1), (Some (add32 n 1), nx)) else again
    | None => again
    end.
End FromSeed.
