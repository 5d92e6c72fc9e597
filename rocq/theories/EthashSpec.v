(** Ethash, revision 23, after the specification on the Ethereum wiki (Yellow Paper, Appendix J): hashes are
    lists of 32-bit words, serialised least significant byte first. *)
From Verif Require Import Base KeccakSpec.

Definition HASH_BYTES : N := 64.
Definition MIX_BYTES : N := 128.
Definition EPOCH_LENGTH : N := 30000.
Definition CACHE_BYTES_INIT : N := 2 ^ 24.
Definition CACHE_BYTES_GROWTH : N := 2 ^ 17.
Definition DATASET_BYTES_INIT : N := 2 ^ 30.
Definition DATASET_BYTES_GROWTH : N := 2 ^ 23.
Definition CACHE_ROUNDS : nat := 3.
Definition DATASET_PARENTS : nat := 256.
Definition ACCESSES : nat := 64.
Definition FNV_PRIME : N := 0x01000193.

Definition prime (p : N) : Prop := 1 < p /\ forall d, N.divide d p -> d = 1 \/ d = p.
Definition largest_prime (bound p : N) : Prop :=
  prime p /\ p <= bound /\ forall q, prime q -> q <= bound -> q <= p.

(** The sizes of the cache and of the data set in an epoch, in items of 64 and of 128 bytes: the largest prime
    numbers of items that fit in linearly growing sizes. *)
Definition cache_items (epoch n : N) : Prop :=
  largest_prime ((CACHE_BYTES_INIT + CACHE_BYTES_GROWTH * epoch) / HASH_BYTES) n.
Definition dataset_items (epoch n : N) : Prop :=
  largest_prime ((DATASET_BYTES_INIT + DATASET_BYTES_GROWTH * epoch) / MIX_BYTES) n.

(** The 32-bit words of a byte string and back. *)
Fixpoint deserialize (bs : bytes) : list N :=
  match bs with
  | b0 :: b1 :: b2 :: b3 :: r => b0 + 256 * b1 + 65536 * b2 + 16777216 * b3 :: deserialize r
  | _ => []
  end.
Definition serialize (ws : list N) : bytes :=
  concat (map (fun w => [w mod 256; w / 256 mod 256; w / 65536 mod 256; w / 16777216 mod 256]) ws).

Definition sha3_512 (m : bytes) : list N := deserialize (keccak_digest 512 m).
Definition fnv (a b : N) : N := N.lxor (a * FNV_PRIME) b mod 2 ^ 32.
Definition zip (f : N -> N -> N) (a b : list N) : list N := map (fun p => f (fst p) (snd p)) (combine a b).

(** The seed of an epoch. *)
Definition seed_hash (epoch : nat) : bytes := Nat.iter epoch (keccak_digest 256) (zeros 32).

(** The cache of [n] items. *)
Fixpoint cache_start (n : nat) (item : list N) : list (list N) :=
  match n with
  | O => []
  | S k => item :: cache_start k (sha3_512 (serialize item))
  end.
Definition set_item {X} (o : list X) (i : nat) (x : X) : list X := firstn i o ++ x :: skipn (S i) o.
Definition item (o : list (list N)) (i : nat) : list N := nth i o [].
Definition cache_mix (n : nat) (o : list (list N)) (i : nat) : list (list N) :=
  let v := N.to_nat (nth 0 (item o i) 0 mod N.of_nat n) in
  set_item o i (sha3_512 (serialize (zip N.lxor (item o ((i + n - 1) mod n)) (item o v)))).
Definition cache_round (n : nat) (o : list (list N)) : list (list N) := fold_left (cache_mix n) (seq 0 n) o.
Definition mkcache (n : nat) (seed : bytes) : list (list N) :=
  Nat.iter CACHE_ROUNDS (cache_round n) (cache_start n (sha3_512 seed)).

(** Item [i] of the data set, computed from the cache. *)
Definition dataset_item (cache : list (list N)) (i : N) : list N :=
  let n := N.of_nat (length cache) in
  let first := item cache (N.to_nat (i mod n)) in
  let mix := sha3_512 (serialize (zip N.lxor first (i :: repeat 0 15))) in
  let step mix j :=
    let cache_index := fnv (N.lxor i (N.of_nat j)) (nth (j mod 16) mix 0) in
    zip fnv mix (item cache (N.to_nat (cache_index mod n))) in
  sha3_512 (serialize (fold_left step (seq 0 DATASET_PARENTS) mix)).

(** The mix digest and the result for a header and a nonce; [full] is the number of 128-byte items of the data
    set, of which item [p] consists of the 64-byte items [2 p] and [2 p + 1]. *)
Fixpoint compress (mix : list N) : list N :=
  match mix with
  | a :: b :: c :: d :: r => fnv (fnv (fnv a b) c) d :: compress r
  | _ => []
  end.
Definition nonce_bytes (nonce : N) : bytes := rev (be_fixed 8 nonce).
Definition hashimoto_seed (header : bytes) (nonce : N) : list N := sha3_512 (header ++ nonce_bytes nonce).
Definition mix_digest (full : N) (lookup : N -> list N) (s : list N) : bytes :=
  let access mix i :=
    let p := fnv (N.lxor (N.of_nat i) (nth 0 s 0)) (nth (i mod 32) mix 0) mod full in
    zip fnv mix (lookup (2 * p) ++ lookup (2 * p + 1)) in
  serialize (compress (fold_left access (seq 0 ACCESSES) (s ++ s))).
Definition pow_result (s : list N) (mix : bytes) : bytes := keccak_digest 256 (serialize s ++ mix).
Definition hashimoto (full : N) (lookup : N -> list N) (header : bytes) (nonce : N) : bytes * bytes :=
  let s := hashimoto_seed header nonce in
  let mix := mix_digest full lookup s in
  (mix, pow_result s mix).
Definition hashimoto_light (cache_size full : N) (seed header : bytes) (nonce : N) : bytes * bytes :=
  hashimoto full (dataset_item (mkcache (N.to_nat cache_size) seed)) header nonce.

(** Hashimoto for a block of a given number. *)
Definition block_hashimoto (number : N) (header : bytes) (nonce : N) (mr : bytes * bytes) : Prop :=
  exists nc nf, cache_items (number / EPOCH_LENGTH) nc /\ dataset_items (number / EPOCH_LENGTH) nf /\
  mr = hashimoto_light nc nf (seed_hash (N.to_nat (number / EPOCH_LENGTH))) header nonce.

(** The rule of the Yellow Paper (4.3.4): the mix digest is that of the header and the result, as a number, does not
    exceed 2^256 divided by the difficulty. *)
Definition valid_pow (number : N) (header mix : bytes) (nonce difficulty : N) : Prop :=
  exists r, block_hashimoto number header nonce (mix, r) /\ be_to_N r <= 2 ^ 256 / difficulty.
