(** Prime numbers, epochs and verification. *)
From Verif Require Import Base BaseFacts KeccakSpec KeccakModel KeccakCases EthashSpec EthashModel EthashProofs EthashProofs2.

(** Trial division. *)
Lemma no_odd_factor_ok number : forall fuel d, 1 < d -> (0 < fuel)%nat -> number < d + N.of_nat fuel ->
  exists b, no_odd_factor fuel number d = Some b /\
    (b = true <-> forall k, (d + 2 * k) * (d + 2 * k) <= number -> number mod (d + 2 * k) <> 0).
Proof.
  induction fuel as [|fuel IH]; intros d D F0 F.
  - lia.
  - cbn [no_odd_factor]. destruct (N.ltb_spec number (d * d)) as [L|G].
    + exists true. split; [reflexivity|]. split; [|reflexivity]. intros _ k K. exfalso. nia.
    + destruct (N.eqb_spec (number mod d) 0) as [Z|NZ].
      * exists false. split; [reflexivity|]. split; [discriminate|]. intros H. specialize (H 0).
        replace (d + 2 * 0) with d in H by lia. exfalso. apply (H G Z).
      * assert (F1 : (0 < fuel)%nat) by (destruct fuel; [exfalso; nia|lia]).
        destruct (IH (d + 2) ltac:(lia) F1 ltac:(lia)) as (b & E & Hb). exists b. split; [exact E|]. rewrite Hb. split.
        -- intros H k K. destruct (N.eq_dec k 0) as [->|K0].
           ++ replace (d + 2 * 0) with d by lia. exact NZ.
           ++ specialize (H (k - 1)). replace (d + 2 + 2 * (k - 1)) with (d + 2 * k) in H by lia. apply H, K.
        -- intros H k. specialize (H (k + 1)). replace (d + 2 * (k + 1)) with (d + 2 + 2 * k) in H by lia. exact H.
Qed.

Lemma land_1 n : N.land n 1 = n mod 2.
Proof. change 1 with (N.ones 1). rewrite N.land_ones. reflexivity. Qed.

Definition odd_prime_or_one (n : N) : Prop := n = 1 \/ prime n /\ n <> 2.

Lemma odd_prime_ok n : 0 < n -> exists b, is_unsigned_odd_prime n = Some b /\ (b = true <-> odd_prime_or_one n).
Proof.
  intros Pos. unfold is_unsigned_odd_prime. rewrite land_1. destruct (N.eqb_spec (n mod 2) 0) as [E|O].
  - exists false. split; [reflexivity|]. split; [discriminate|]. intros [->|[[_ P] N2]]; [discriminate E|].
    exfalso. destruct (P 2) as [H|H]; [|discriminate H|congruence]. apply N.mod_divide; [discriminate|exact E].
  - destruct (no_odd_factor_ok n (S (N.to_nat n)) 3 ltac:(lia) ltac:(lia) ltac:(lia)) as (b & Eb & Hb). exists b. split; [exact Eb|].
    rewrite Hb. clear b Eb Hb. split.
    + intros H. destruct (N.eq_dec n 1) as [->|N1]; [left; reflexivity|]. right. split; [|intros ->; apply O; reflexivity].
      split; [lia|]. intros d [e Ee].
      destruct (N.eq_dec d 1) as [->|D1]; [left; reflexivity|]. right.
      destruct (N.eq_dec e 1) as [->|E1]; [lia|]. exfalso.
      assert (D0 : d <> 0) by (intros ->; lia). assert (E0 : e <> 0) by (intros ->; lia).
      assert (Od : d mod 2 = 1).
      { destruct (N.eq_dec (d mod 2) 1) as [X|X]; [exact X|]. exfalso. apply O. subst n. rewrite N.mul_mod by discriminate.
        replace (d mod 2) with 0 by (pose proof (N.mod_lt d 2 ltac:(discriminate)); lia). rewrite N.mul_0_r. reflexivity. }
      assert (Oe : e mod 2 = 1).
      { destruct (N.eq_dec (e mod 2) 1) as [X|X]; [exact X|]. exfalso. apply O. subst n. rewrite N.mul_mod by discriminate.
        replace (e mod 2) with 0 by (pose proof (N.mod_lt e 2 ltac:(discriminate)); lia). rewrite N.mul_0_l. reflexivity. }
      destruct (N.le_gt_cases d e) as [Le|Gt].
      * apply (H ((d - 3) / 2)); replace (3 + 2 * ((d - 3) / 2)) with d by lia; [subst n; nia|].
        subst n. apply N.mod_mul. exact D0.
      * apply (H ((e - 3) / 2)); replace (3 + 2 * ((e - 3) / 2)) with e by lia; [subst n; nia|].
        subst n. rewrite N.mul_comm. apply N.mod_mul. exact E0.
    + intros [->|[[P1 P] N2]] k K.
      * exfalso. nia.
      * intros Z. apply N.mod_divide in Z; [|lia]. destruct (P _ Z) as [X|X]; [lia|]. rewrite X in K. nia.
Qed.

Lemma descend_ok : forall fuel n, 0 < n -> n mod 2 = 1 -> n < 2 ^ 32 -> n <= N.of_nat fuel ->
  exists m, descend fuel n = Some m /\ m <= n /\ odd_prime_or_one m /\ m mod 2 = 1 /\
    forall q, q mod 2 = 1 -> q <= n -> odd_prime_or_one q -> q <= m.
Proof.
  induction fuel as [|fuel IH]; intros n Pos O L F; [lia|]. cbn [descend].
  destruct (odd_prime_ok n Pos) as (b & -> & Hb). destruct b.
  - exists n. split; [reflexivity|]. split; [lia|]. split; [apply Hb; reflexivity|]. auto.
  - assert (N1 : n <> 1).
    { intros ->. assert (false = true) by (apply Hb; left; reflexivity). discriminate. }
    assert (E : sub32 n 2 = n - 2).
    { unfold sub32. change (2 ^ 32) with 4294967296 in *. replace (n + 4294967296 - 2) with (n - 2 + 1 * 4294967296) by lia.
      rewrite N.mod_add by lia. apply N.mod_small. lia. }
    assert (O3 : 3 <= n) by (clear E Hb IH; lia).
    assert (O2 : (n - 2) mod 2 = 1) by (clear E Hb IH L F; lia).
    assert (L2 : n - 2 < 2 ^ 32) by (clear E Hb IH O O2; lia).
    rewrite E. destruct (IH (n - 2) ltac:(lia) O2 L2 ltac:(lia)) as (m & Em & Lm & Pm & Om & Max).
    exists m. split; [exact Em|]. split; [lia|]. split; [exact Pm|]. split; [exact Om|]. intros q Oq Lq Pq.
    destruct (N.eq_dec q n) as [->|D].
    + exfalso. assert (false = true) by (apply Hb; exact Pq). discriminate.
    + apply Max; [exact Oq| |exact Pq]. lia.
Qed.

Lemma prime_3 : prime 3.
Proof.
  split; [reflexivity|]. intros d [e E].
  assert (D : d <= 3). { destruct (N.eq_dec e 0) as [->|NZ]; [lia|]. assert (1 * d <= e * d) by (apply N.mul_le_mono_r; lia). lia. }
  assert (C : d = 0 \/ d = 1 \/ d = 2 \/ d = 3) by lia. destruct C as [->|[->|[->| ->]]]; lia.
Qed.

Lemma largest_ok ub : 3 <= ub -> ub < 2 ^ 32 -> exists p, find_largest_unsigned_prime ub = Some p /\ largest_prime ub p.
Proof.
  intros L3 L32. unfold find_largest_unsigned_prime. destruct (N.ltb_spec ub 2); [lia|]. rewrite land_1.
  set (n := if ub mod 2 =? 0 then ub - 1 else ub).
  assert (Hn : n mod 2 = 1 /\ n <= ub /\ 3 <= n /\ (n = ub \/ n = ub - 1)) by (unfold n; destruct (N.eqb_spec (ub mod 2) 0); lia).
  destruct Hn as (On & Ln & Gn & Cn).
  destruct (descend_ok (S (N.to_nat n)) n ltac:(lia) On ltac:(lia) ltac:(lia)) as (m & E & Lm & Pm & Om & Max).
  exists m. split; [exact E|].
  assert (M3 : 3 <= m) by (apply Max; [reflexivity|exact Gn|]; right; split; [exact prime_3|discriminate]).
  split; [|split; [lia|]].
  - destruct Pm as [->|[P _]]; [lia|exact P].
  - intros q Pq Lq. destruct (N.eq_dec q 2) as [->|Q2]; [lia|].
    assert (Oq : q mod 2 = 1).
    { destruct (N.eq_dec (q mod 2) 0) as [X|X]; [|lia]. exfalso. destruct (proj2 Pq 2) as [H1|H1]; [|discriminate H1|congruence].
      apply N.mod_divide; [discriminate|exact X]. }
    apply Max; [exact Oq| |right; split; assumption]. lia.
Qed.

Lemma largest_unique b p q : largest_prime b p -> largest_prime b q -> p = q.
Proof. intros (P & Lp & Mp) (Q & Lq & Mq). apply N.le_antisymm; auto. Qed.

(** Sizes. *)
Lemma cache_items_ok e : e < 2 ^ 21 - 2 ^ 7 ->
  exists n, calculate_light_cache_num_items e = Some n /\ cache_items e n.
Proof.
  intros L. change (2 ^ 21 - 2 ^ 7) with 2097024 in L. unfold calculate_light_cache_num_items, cache_items.
  assert (E : add32 (light_cache_init_size / 64) (mul32 e (light_cache_growth / 64)) = (CACHE_BYTES_INIT + CACHE_BYTES_GROWTH * e) / HASH_BYTES).
  { unfold add32, mul32. change (light_cache_init_size / 64) with 262144. change (light_cache_growth / 64) with 2048.
    change CACHE_BYTES_INIT with 16777216. change CACHE_BYTES_GROWTH with 131072. change HASH_BYTES with 64. change (2 ^ 32) with 4294967296.
    rewrite (N.mod_small (e * 2048)) by lia. rewrite N.mod_small by lia. lia. }
  rewrite E. apply largest_ok; change CACHE_BYTES_INIT with 16777216; change CACHE_BYTES_GROWTH with 131072; change HASH_BYTES with 64; change (2 ^ 32) with 4294967296; lia.
Qed.
Lemma dataset_items_ok e : e < 2 ^ 16 - 2 ^ 7 ->
  exists n, calculate_full_dataset_num_items e = Some n /\ dataset_items e n.
Proof.
  intros L. change (2 ^ 16 - 2 ^ 7) with 65408 in L. unfold calculate_full_dataset_num_items, dataset_items.
  assert (E : add32 (full_dataset_init_size / 128) (mul32 e (full_dataset_growth / 128)) = (DATASET_BYTES_INIT + DATASET_BYTES_GROWTH * e) / MIX_BYTES).
  { unfold add32, mul32. change (full_dataset_init_size / 128) with 8388608. change (full_dataset_growth / 128) with 65536.
    change DATASET_BYTES_INIT with 1073741824. change DATASET_BYTES_GROWTH with 8388608. change MIX_BYTES with 128. change (2 ^ 32) with 4294967296.
    rewrite (N.mod_small (e * 65536)) by lia. rewrite N.mod_small by lia. lia. }
  rewrite E. apply largest_ok; change DATASET_BYTES_INIT with 1073741824; change DATASET_BYTES_GROWTH with 8388608; change MIX_BYTES with 128; change (2 ^ 32) with 4294967296; lia.
Qed.

(** Seeds. *)
Lemma seed_from_ok : forall count seed, wf_bytes seed ->
  seed_from count seed = Some (Nat.iter count (keccak_digest 256) seed) /\ wf_bytes (Nat.iter count (keccak_digest 256) seed).
Proof.
  induction count as [|k IH]; intros seed W; cbn [seed_from].
  - split; [reflexivity|exact W].
  - rewrite (keccak256_ok seed W). destruct (IH (keccak_digest 256 seed) (digest_wf _ _)) as [E F].
    assert (C : Nat.iter (S k) (keccak_digest 256) seed = Nat.iter k (keccak_digest 256) (keccak_digest 256 seed)).
    { clear. induction k as [|k IH]; [reflexivity|]. change (keccak_digest 256 (Nat.iter (S k) (keccak_digest 256) seed) = keccak_digest 256 (Nat.iter k (keccak_digest 256) (keccak_digest 256 seed))). rewrite IH. reflexivity. }
    rewrite C. split; assumption.
Qed.
Lemma seed_ok e : calculate_seed_from_epoch e = Some (seed_hash (N.to_nat e)) /\ wf_bytes (seed_hash (N.to_nat e)).
Proof. apply seed_from_ok. apply wf_zeros. Qed.

(** Contexts: what every context of an epoch is. *)
Definition epoch_range (e : N) : Prop := e < 2 ^ 15 - 2 ^ 7.
Definition context_of (e : N) (c : epoch_context) : Prop :=
  ec_epoch_number c = e /\ good_context c /\ cache_items e (ec_light_cache_num_items c) /\ dataset_items e (ec_full_dataset_num_items c) /\
  ec_full_dataset_num_items c <= 2 ^ 31 /\
  spec_cache c = mkcache (N.to_nat (ec_light_cache_num_items c)) (seed_hash (N.to_nat e)).

Lemma create_ok e : epoch_range e -> exists c, create_epoch_context true e = Some (Some c) /\ context_of e c.
Proof.
  intros R. unfold epoch_range in R. change (2 ^ 15 - 2 ^ 7) with 32640 in R. unfold create_epoch_context.
  destruct (cache_items_ok e) as (nc & -> & Hc); [change (2 ^ 21 - 2 ^ 7) with 2097024; lia|].
  destruct (dataset_items_ok e) as (nf & -> & Hf); [change (2 ^ 16 - 2 ^ 7) with 65408; lia|].
  destruct (seed_ok e) as [-> Ws].
  assert (Bc : 0 < nc /\ nc <= 2 ^ 31).
  { destruct Hc as ((P & _) & L & _). change CACHE_BYTES_INIT with 16777216 in L. change CACHE_BYTES_GROWTH with 131072 in L. change HASH_BYTES with 64 in L. change (2 ^ 31) with 2147483648. lia. }
  assert (Bf : nf <= 2 ^ 31).
  { destruct Hf as (_ & L & _). change DATASET_BYTES_INIT with 1073741824 in L. change DATASET_BYTES_GROWTH with 8388608 in L. change MIX_BYTES with 128 in L. change (2 ^ 31) with 2147483648. lia. }
  destruct (build_light_cache_ok nc _ (proj1 Bc) (proj2 Bc) Ws) as (cache & -> & Lc & Fc & Mc).
  eexists. split; [reflexivity|]. split; [reflexivity|].
  split; [|split; [exact Hc|split; [exact Hf|split; [exact Bf|exact Mc]]]].
  split; [cbn; rewrite Lc, N2Nat.id; reflexivity|]. split; [|exact Fc]. cbn [ec_light_cache_num_items].
  change (2 ^ 31) with 2147483648 in Bc. change (2 ^ 32) with 4294967296. lia.
Qed.

Lemma context_hashimoto e c header nonce : context_of e c ->
  hashimoto (ec_full_dataset_num_items c) (dataset_item (spec_cache c)) header nonce =
  hashimoto_light (ec_light_cache_num_items c) (ec_full_dataset_num_items c) (seed_hash (N.to_nat e)) header nonce.
Proof. intros (_ & _ & _ & _ & _ & E). unfold hashimoto_light. rewrite E. reflexivity. Qed.

(** A hash of 32 bytes. *)
Definition hash32 (b : bytes) : Prop := wf_bytes b /\ length b = 32%nat.

Lemma hash_ok e c header nonce : context_of e c -> wf_bytes header ->
  let '(m, r) := hashimoto (ec_full_dataset_num_items c) (dataset_item (spec_cache c)) header nonce in
  hash c header nonce = Some (r, m) /\ hash32 m /\ hash32 r.
Proof.
  intros (_ & G & _ & Hf & Bf & _) W. unfold hash, hashimoto.
  destruct (hash_seed_ok header nonce W) as (s & -> & Bs & Es). rewrite <- Es.
  assert (Pf : 0 < ec_full_dataset_num_items c) by (destruct Hf as ((P & _) & _); lia).
  destruct (hash_mix_ok c s G Pf Bf Bs) as [-> Bm].
  destruct (hash_final_ok s _ Bs (proj1 Bm)) as [-> Br]. split; [reflexivity|]. split; assumption.
Qed.

(** What the specification makes of a claimed mix hash. *)
Definition judged (header mix : bytes) (nonce : N) (boundary : bytes) (mr : bytes * bytes) (v : verification_result) : Prop :=
  let claimed := pow_result (hashimoto_seed header nonce) mix in
  match v with
  | kInvalidNonce => be_to_N boundary < be_to_N claimed
  | kInvalidMixHash => be_to_N claimed <= be_to_N boundary /\ mix <> fst mr
  | kOk => be_to_N claimed <= be_to_N boundary /\ mix = fst mr
  end.

Lemma verify_full_ok e c header mix nonce boundary : context_of e c -> wf_bytes header -> wf_bytes mix -> hash32 boundary ->
  exists v, verify_full c header mix nonce boundary = Some v /\
    judged header mix nonce boundary (hashimoto (ec_full_dataset_num_items c) (dataset_item (spec_cache c)) header nonce) v.
Proof.
  intros (_ & G & _ & Hf & Bf & _) W Wm Bb. unfold verify_full, judged, hashimoto. cbn [fst].
  destruct (hash_seed_ok header nonce W) as (s & -> & Bs & Es). rewrite <- Es.
  assert (Pf : 0 < ec_full_dataset_num_items c) by (destruct Hf as ((P & _) & _); lia).
  destruct (hash_final_ok s mix Bs Wm) as [-> Br]. rewrite is_less_or_equal_ok by assumption.
  destruct (hash_mix_ok c s G Pf Bf Bs) as [-> Bm].
  destruct (N.leb_spec (be_to_N (pow_result (word32s s) mix)) (be_to_N boundary)) as [Le|Gt]; cbn [negb].
  - unfold is_equal. destruct (bytes_eqb mix _) eqn:Em; cbn [negb].
    + exists kOk. split; [reflexivity|]. split; [exact Le|]. apply bytes_eqb_eq, Em.
    + exists kInvalidMixHash. split; [reflexivity|]. split; [exact Le|]. intros X. rewrite X in Em. 
      assert (bytes_eqb (mix_digest (ec_full_dataset_num_items c) (dataset_item (spec_cache c)) (word32s s)) (mix_digest (ec_full_dataset_num_items c) (dataset_item (spec_cache c)) (word32s s)) = true) by (apply bytes_eqb_eq; reflexivity). congruence.
  - exists kInvalidNonce. split; [reflexivity|exact Gt].
Qed.
