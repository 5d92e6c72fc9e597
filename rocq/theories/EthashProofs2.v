(** The cache, the mix, the comparison with the boundary. *)
From Verif Require Import Base BaseFacts KeccakSpec KeccakModel KeccakCases EthashSpec EthashModel EthashProofs.

(** The cache. *)
Lemma cache_chain_ok : forall count prev, blob 16 prev ->
  exists r, cache_chain count prev = Some r /\ length r = count /\ Forall (blob 16) r /\
    map word32s r = cache_start count (sha3_512 (serialize (word32s prev))).
Proof.
  induction count as [|k IH]; intros prev B; cbn [cache_chain cache_start].
  - exists []. repeat split. constructor.
  - destruct (hash512 prev (proj1 B)) as (h & -> & Bh & Eh). destruct (IH h Bh) as (r & -> & L & F & M).
    exists (h :: r). split; [reflexivity|]. split; [cbn [length]; lia|]. split; [constructor; assumption|].
    cbn [map]. rewrite M, Eh. rewrite (blob_serialize prev B). reflexivity.
Qed.

Lemma store_item_ok : forall cache i x, (i < length cache)%nat -> store_item cache i x = Some (set_item cache i x).
Proof.
  induction cache as [|a r IH]; intros i x L; [cbn [length] in L; lia|]. destruct i as [|i]; [reflexivity|].
  cbn [store_item]. rewrite IH by (cbn [length] in L; lia). reflexivity.
Qed.
Lemma set_item_map {X Y} (f : X -> Y) o i x : map f (set_item o i x) = set_item (map f o) i (f x).
Proof. unfold set_item. rewrite map_app. cbn [map]. rewrite firstn_map, skipn_map. reflexivity. Qed.
Lemma set_item_length {X} (o : list X) i x : (i < length o)%nat -> length (set_item o i x) = length o.
Proof. intros L. unfold set_item. rewrite app_length, firstn_length. cbn [length]. rewrite skipn_length. lia. Qed.
Lemma set_item_forall {X} (P : X -> Prop) o i x : Forall P o -> P x -> Forall P (set_item o i x).
Proof.
  intros F H. unfold set_item. apply Forall_app. split.
  - rewrite <- (firstn_skipn i o) in F. apply Forall_app in F. apply F.
  - constructor; [exact H|]. rewrite <- (firstn_skipn (S i) o) in F. apply Forall_app in F. apply F.
Qed.

Lemma previous_index n i : 0 < n -> n <= 2 ^ 31 -> i < n ->
  mod32 (add32 n (sub32 i 1)) n = Some ((i + n - 1) mod n).
Proof.
  intros Pos L I. destruct (mod32_ok (add32 n (sub32 i 1)) n Pos) as [-> _]. f_equal. f_equal.
  unfold add32, sub32. change (2 ^ 31) with 2147483648 in L. change (2 ^ 32) with 4294967296.
  destruct (N.eq_dec i 0) as [->|NZ].
  - change ((0 + 4294967296 - 1) mod 4294967296) with 4294967295.
    replace (n + 4294967295) with (n - 1 + 1 * 4294967296) by lia. rewrite N.mod_add by lia. rewrite N.mod_small by lia. lia.
  - replace (i + 4294967296 - 1) with (i - 1 + 1 * 4294967296) by lia. rewrite N.mod_add by lia.
    rewrite (N.mod_small (i - 1)) by lia. rewrite N.mod_small by lia. lia.
Qed.

Lemma cache_pass_ok n : 0 < n -> n <= 2 ^ 31 -> forall count i cache,
  (i + count <= N.to_nat n)%nat -> length cache = N.to_nat n -> Forall (blob 16) cache ->
  exists cache', cache_pass count (N.of_nat i) n cache = Some cache' /\ length cache' = N.to_nat n /\ Forall (blob 16) cache' /\
    map word32s cache' = fold_left (cache_mix (N.to_nat n)) (seq i count) (map word32s cache).
Proof.
  intros Pos L31. induction count as [|k IH]; intros i cache Le L F; cbn [cache_pass seq fold_left].
  - exists cache. auto.
  - rewrite Nat2N.id. destruct (cache_read cache i F ltac:(lia)) as (ci & -> & Bi & Ei).
    destruct (nth_words ci 0 Bi ltac:(lia)) as (t & -> & Et & _).
    destruct (mod32_ok t n Pos) as [-> Lv]. rewrite (previous_index n (N.of_nat i) Pos L31 ltac:(lia)).
    destruct (cache_read cache (N.to_nat (t mod n)) F ltac:(lia)) as (cv & -> & Bv & Ev).
    assert (Lw : (N.of_nat i + n - 1) mod n < n) by (apply N.mod_lt; lia).
    destruct (cache_read cache (N.to_nat ((N.of_nat i + n - 1) mod n)) F ltac:(lia)) as (cw & -> & Bw & Ew).
    destruct (xor_512_ok cv cw Bv Bw) as [Ex Wx]. destruct (hash512 _ Wx) as (h & -> & Bh & Eh).
    rewrite store_item_ok by lia. replace (N.of_nat i + 1) with (N.of_nat (S i)) by lia.
    destruct (IH (S i) (set_item cache i h) ltac:(lia) ltac:(rewrite set_item_length; lia) (set_item_forall _ _ _ _ F Bh)) as (cache' & E & L' & F' & M).
    exists cache'. split; [exact E|]. split; [exact L'|]. split; [exact F'|]. rewrite M. f_equal.
    rewrite set_item_map. unfold cache_mix. rewrite Ei, Et, Eh, Ex. rewrite N2Nat.id, Ev.
    replace ((i + N.to_nat n - 1) mod N.to_nat n)%nat with (N.to_nat ((N.of_nat i + n - 1) mod n)).
    + rewrite Ew. reflexivity.
    + rewrite N2Nat.inj_mod. f_equal. lia.
Qed.

Lemma cache_passes_ok n : 0 < n -> n <= 2 ^ 31 -> forall rounds cache, length cache = N.to_nat n -> Forall (blob 16) cache ->
  exists cache', cache_passes rounds n cache = Some cache' /\ length cache' = N.to_nat n /\ Forall (blob 16) cache' /\
    map word32s cache' = Nat.iter rounds (cache_round (N.to_nat n)) (map word32s cache).
Proof.
  intros Pos L31. induction rounds as [|k IH]; intros cache L F; cbn [cache_passes].
  - exists cache. auto.
  - destruct (cache_pass_ok n Pos L31 (N.to_nat n) 0 cache ltac:(lia) L F) as (c1 & E1 & L1 & F1 & M1).
    change (N.of_nat 0) with 0 in E1. rewrite E1. destruct (IH c1 L1 F1) as (c2 & E2 & L2 & F2 & M2).
    exists c2. split; [exact E2|]. split; [exact L2|]. split; [exact F2|]. rewrite M2, M1.
    change (fold_left (cache_mix (N.to_nat n)) (seq 0 (N.to_nat n)) (map word32s cache)) with (cache_round (N.to_nat n) (map word32s cache)).
    clear. induction k as [|k IH]; [reflexivity|]. cbn [Nat.iter nat_rect]. f_equal. exact IH.
Qed.

Lemma build_light_cache_ok n seed : 0 < n -> n <= 2 ^ 31 -> wf_bytes seed ->
  exists cache, build_light_cache n seed = Some cache /\ length cache = N.to_nat n /\ Forall (blob 16) cache /\
    map word32s cache = mkcache (N.to_nat n) seed.
Proof.
  intros Pos L31 W. unfold build_light_cache. destruct (N.eqb_spec n 0); [lia|].
  destruct (hash512 seed W) as (h & -> & Bh & Eh). destruct (cache_chain_ok (N.to_nat (n - 1)) h Bh) as (r & -> & Lr & Fr & Mr).
  assert (L : length (h :: r) = N.to_nat n) by (cbn [length]; lia).
  assert (F : Forall (blob 16) (h :: r)) by (constructor; assumption).
  destruct (cache_passes_ok n Pos L31 light_cache_rounds (h :: r) L F) as (cache & E & Lc & Fc & M).
  exists cache. split; [exact E|]. split; [exact Lc|]. split; [exact Fc|]. rewrite M. unfold mkcache.
  change CACHE_ROUNDS with light_cache_rounds. f_equal.
  replace (N.to_nat n) with (S (N.to_nat (n - 1))) by lia. cbn [map cache_start]. rewrite Mr, Eh. reflexivity.
Qed.

(** The mix. *)
Lemma compress_ok : forall mix, Forall word mix -> mix_compress mix = compress mix /\ Forall word (compress mix).
Proof.
  fix IH 1. intros [|a [|b [|c [|d r]]]] F; try (split; [reflexivity|constructor]).
  do 4 (apply Forall_cons_iff in F; destruct F as [? F]).
  destruct (IH r F) as [E Fr]. cbn [mix_compress compress]. rewrite E.
  destruct (fnv1_ok a b) as [-> W1]; [assumption|]. destruct (fnv1_ok (fnv a b) c) as [-> W2]; [assumption|].
  destruct (fnv1_ok (fnv (fnv a b) c) d) as [-> W3]; [assumption|]. split; [reflexivity|constructor; assumption].
Qed.

Definition spec_access (c : epoch_context) (s0 : N) (mix : list N) (i : nat) : list N :=
  let p := fnv (N.lxor (N.of_nat i) s0) (nth (i mod 32) mix 0) mod ec_full_dataset_num_items c in
  zip fnv mix (dataset_item (spec_cache c) (2 * p) ++ dataset_item (spec_cache c) (2 * p + 1)).

Lemma mix_accesses_ok c s0 : good_context c -> 0 < ec_full_dataset_num_items c -> ec_full_dataset_num_items c <= 2 ^ 31 ->
  forall count i mix, length mix = 32%nat -> Forall word mix ->
  exists mix', mix_accesses count i c s0 mix = Some mix' /\ length mix' = 32%nat /\ Forall word mix' /\
    mix' = fold_left (spec_access c s0) (seq i count) mix.
Proof.
  intros G Pos L31. induction count as [|k IH]; intros i mix L F; cbn [mix_accesses seq fold_left].
  - exists mix. auto.
  - destruct (nth_error mix (i mod 32)) as [m|] eqn:Em; [|apply nth_error_None in Em; lia].
    assert (Wm : word m) by (rewrite Forall_forall in F; apply F; apply nth_error_In in Em; exact Em).
    rewrite (proj1 (fnv1_ok _ m Wm)).
    destruct (mod32_ok (fnv (N.lxor (N.of_nat i) s0) m) _ Pos) as [-> Lp].
    set (p := fnv (N.lxor (N.of_nat i) s0) m mod ec_full_dataset_num_items c) in *.
    destruct (dataset_item_1024_ok c G p) as (d & -> & Bd & Ed).
    { change (2 ^ 31) with 2147483648 in L31. change (2 ^ 32) with 4294967296. lia. }
    destruct (both_fnv mix (word32s d) (word32s_wf 32 d Bd)) as [-> Fd].
    assert (Step : zip fnv mix (word32s d) = spec_access c s0 mix i).
    { unfold spec_access. rewrite (nth_error_nth _ _ _ Em). fold p. rewrite Ed. reflexivity. }
    rewrite <- Step. replace (S i) with (i + 1)%nat by lia. apply IH; [|exact Fd].
    rewrite zip_length, L, (word32s_length 32) by apply Bd. reflexivity.
Qed.

Lemma hash_mix_ok c seed : good_context c -> 0 < ec_full_dataset_num_items c -> ec_full_dataset_num_items c <= 2 ^ 31 ->
  blob 16 seed ->
  hash_mix c seed = Some (mix_digest (ec_full_dataset_num_items c) (dataset_item (spec_cache c)) (word32s seed)) /\
  blob 8 (mix_digest (ec_full_dataset_num_items c) (dataset_item (spec_cache c)) (word32s seed)).
Proof.
  intros G Pos L31 B. unfold hash_mix. destruct (nth_words seed 0 B ltac:(lia)) as (w & -> & Ew & _).
  assert (Ls : length (word32s seed ++ word32s seed) = 32%nat) by (rewrite app_length, (word32s_length 16) by apply B; reflexivity).
  assert (Fs : Forall word (word32s seed ++ word32s seed)) by (apply Forall_app; split; apply (word32s_wf 16), B).
  destruct (mix_accesses_ok c w G Pos L31 num_dataset_accesses 0 _ Ls Fs) as (mix & -> & Lm & Fm & Em).
  destruct (compress_ok mix Fm) as [-> Fc].
  assert (E : mix_digest (ec_full_dataset_num_items c) (dataset_item (spec_cache c)) (word32s seed) = serialize (compress mix)).
  { rewrite Em. unfold mix_digest. rewrite Ew. reflexivity. }
  rewrite E, of_word32s_spec. split; [reflexivity|]. rewrite <- of_word32s_spec. split; [apply of_word32s_wf|].
  rewrite of_word32s_length. f_equal. clear - Lm.
  do 32 (destruct mix as [|? mix]; [discriminate Lm|]). destruct mix; [reflexivity|discriminate Lm].
Qed.

(** The nonce, the seed and the final hash. *)
Lemma le_is_rev : forall k n, le_bytes k n = rev (be_fixed k n).
Proof.
  induction k as [|k IH]; intros n; [reflexivity|]. cbn [le_bytes be_fixed]. rewrite rev_app_distr. cbn [rev app]. rewrite IH. reflexivity.
Qed.
Lemma hash_seed_ok header nonce : wf_bytes header ->
  exists s, hash_seed header nonce = Some s /\ blob 16 s /\ word32s s = hashimoto_seed header nonce.
Proof.
  intros W. unfold hash_seed, hashimoto_seed, nonce_bytes. rewrite le_is_rev. apply hash512. apply Forall_app. split; [exact W|].
  rewrite <- le_is_rev. apply le_bytes_wf.
Qed.
Lemma hash_final_ok s mix : blob 16 s -> wf_bytes mix ->
  hash_final s mix = Some (pow_result (word32s s) mix) /\ blob 8 (pow_result (word32s s) mix).
Proof.
  intros B W. unfold hash_final, pow_result. rewrite (blob_serialize s B).
  destruct (hash256_ok (s ++ mix)) as (h & -> & Bh & ->); [|auto]. apply Forall_app. split; [apply B|exact W].
Qed.

(** The comparison. *)
Lemma bswap_ok b : wf_bytes b -> length b = 8%nat -> bswap64 (le_to_N b) = be_to_N b.
Proof. intros W L. unfold bswap64. rewrite <- L, bytes_to_le by exact W. reflexivity. Qed.
Lemma be_app a b : be_to_N (a ++ b) = be_to_N a * 256 ^ blen b + be_to_N b.
Proof. unfold be_to_N at 1. rewrite fold_left_app. apply be_to_N_app_acc. Qed.
Lemma less_or_equal_ok : forall n a b, blob (2 * n) a -> blob (2 * n) b ->
  less_or_equal (word64s a) (word64s b) = (be_to_N a <=? be_to_N b).
Proof.
  induction n as [|n IH]; intros a b [Wa La] [Wb Lb].
  - destruct a; [|discriminate La]. destruct b; [reflexivity|discriminate Lb].
  - destruct a as [|a0 [|a1 [|a2 [|a3 [|a4 [|a5 [|a6 [|a7 r]]]]]]]]; cbn [length] in La; try lia.
    destruct b as [|b0 [|b1 [|b2 [|b3 [|b4 [|b5 [|b6 [|b7 q]]]]]]]]; cbn [length] in Lb; try lia.
    assert (Lr : length r = (4 * (2 * n))%nat) by lia. assert (Lq : length q = (4 * (2 * n))%nat) by lia. clear La Lb.
    cbn [word64s less_or_equal].
    change (a0 :: a1 :: a2 :: a3 :: a4 :: a5 :: a6 :: a7 :: r) with ([a0; a1; a2; a3; a4; a5; a6; a7] ++ r) in *.
    change (b0 :: b1 :: b2 :: b3 :: b4 :: b5 :: b6 :: b7 :: q) with ([b0; b1; b2; b3; b4; b5; b6; b7] ++ q) in *.
    apply Forall_app in Wa, Wb. destruct Wa as [Wa Wr], Wb as [Wb Wq].
    rewrite !bswap_ok by (assumption || reflexivity). rewrite (IH r q (conj Wr Lr) (conj Wq Lq)). rewrite !be_app.
    pose proof (be_to_N_bound r Wr) as Br. pose proof (be_to_N_bound q Wq) as Bq.
    replace (blen q) with (blen r) in * by (unfold blen; rewrite Lr, Lq; reflexivity).
    generalize dependent (be_to_N [a0; a1; a2; a3; a4; a5; a6; a7]). generalize dependent (be_to_N [b0; b1; b2; b3; b4; b5; b6; b7]).
    intros y x. generalize dependent (256 ^ blen r). intros m Br Bq.
    destruct (N.ltb_spec y x) as [L|G].
    + symmetry. apply N.leb_gt. nia.
    + destruct (N.ltb_spec x y) as [L2|G2].
      * symmetry. apply N.leb_le. nia.
      * assert (x = y) by lia. subst y. destruct (N.leb_spec (be_to_N r) (be_to_N q)), (N.leb_spec (x * m + be_to_N r) (x * m + be_to_N q)); lia.
Qed.
Lemma is_less_or_equal_ok a b : blob 8 a -> blob 8 b -> is_less_or_equal a b = (be_to_N a <=? be_to_N b).
Proof. exact (less_or_equal_ok 4 a b). Qed.
