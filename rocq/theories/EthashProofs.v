(** Words, hashes and the data set: the code on bytes follows the specification on words. *)
From Verif Require Import Base BaseFacts KeccakSpec KeccakModel KeccakCases EthashSpec EthashModel.

Definition word (w : N) : Prop := w < 2 ^ 32.
(** A byte string of [n] 32-bit words. *)
Definition blob (n : nat) (b : bytes) : Prop := wf_bytes b /\ length b = (4 * n)%nat.

Lemma word32s_spec : forall bs, word32s bs = deserialize bs.
Proof.
  fix IH 1. intros [|b0 [|b1 [|b2 [|b3 r]]]]; try reflexivity.
  cbn [word32s deserialize]. rewrite (IH r). apply (f_equal (fun x => x :: deserialize r)). cbn [le_to_N]. lia.
Qed.

Lemma of_word32s_spec ws : of_word32s ws = serialize ws.
Proof.
  unfold of_word32s, serialize. f_equal. apply map_ext. intros w. cbn [le_bytes].
  rewrite !N.div_div by lia. reflexivity.
Qed.

Lemma both_zip f a b : both f a b = zip f a b.
Proof. reflexivity. Qed.

Lemma word32s_length : forall n b, length b = (4 * n)%nat -> length (word32s b) = n.
Proof.
  induction n as [|n IH]; intros b L.
  - destruct b; [reflexivity|discriminate L].
  - destruct b as [|b0 [|b1 [|b2 [|b3 r]]]]; cbn [length] in L; try lia. cbn [word32s length]. rewrite (IH r) by lia. reflexivity.
Qed.

Lemma word32s_wf : forall n b, blob n b -> Forall word (word32s b).
Proof.
  induction n as [|n IH]; intros b [W L].
  - destruct b; [constructor|discriminate L].
  - destruct b as [|b0 [|b1 [|b2 [|b3 r]]]]; cbn [length] in L; try lia.
    do 4 (apply Forall_cons_iff in W; destruct W as [? W]). cbn [word32s]. constructor.
    + unfold word, wf_byte in *. cbn [le_to_N]. change (2 ^ 32) with 4294967296. lia.
    + apply IH. split; [exact W|lia].
Qed.

Lemma of_word32s_length ws : length (of_word32s ws) = (4 * length ws)%nat.
Proof. induction ws as [|w ws IH]; [reflexivity|]. unfold of_word32s in *. cbn [map concat]. rewrite app_length, IH. cbn [le_bytes length]. lia. Qed.

Lemma le_bytes_wf : forall k n, wf_bytes (le_bytes k n).
Proof. induction k as [|k IH]; intros n; [constructor|]. cbn [le_bytes]. constructor; [|apply IH]. apply N.mod_lt. discriminate. Qed.
Lemma of_word32s_wf ws : wf_bytes (of_word32s ws).
Proof. induction ws as [|w ws IH]; [constructor|]. unfold of_word32s in *. cbn [map concat]. apply Forall_app. split; [apply le_bytes_wf|exact IH]. Qed.
Lemma of_word32s_blob ws : blob (length ws) (of_word32s ws).
Proof. split; [apply of_word32s_wf|apply of_word32s_length]. Qed.

Lemma le_to_bytes : forall k n, n < 256 ^ N.of_nat k -> le_to_N (le_bytes k n) = n.
Proof.
  induction k as [|k IH]; intros n L.
  - change (256 ^ N.of_nat 0) with 1 in L. cbn [le_bytes le_to_N]. lia.
  - cbn [le_bytes le_to_N]. rewrite IH.
    + pose proof (N.div_mod n 256). lia.
    + rewrite Nat2N.inj_succ, N.pow_succ_r' in L. apply N.div_lt_upper_bound; lia.
Qed.
Lemma bytes_to_le : forall b, wf_bytes b -> le_bytes (length b) (le_to_N b) = b.
Proof.
  induction b as [|x b IH]; intros W; [reflexivity|]. apply Forall_cons_iff in W. destruct W as [X W]. unfold wf_byte in X.
  cbn [length le_to_N le_bytes]. f_equal; [lia|]. replace ((x + 256 * le_to_N b) / 256) with (le_to_N b) by lia. apply IH, W.
Qed.

Lemma words_back : forall ws, Forall word ws -> word32s (of_word32s ws) = ws.
Proof.
  induction ws as [|w ws IH]; intros W; [reflexivity|]. apply Forall_cons_iff in W. destruct W as [X W].
  unfold of_word32s. cbn [map concat]. change (concat (map (le_bytes 4) ws)) with (of_word32s ws).
  pose proof (le_to_bytes 4 w X) as E. unfold le_bytes at 1. unfold le_bytes in E. cbn [app word32s]. rewrite E, IH by exact W.
  reflexivity.
Qed.
Lemma bytes_back : forall n b, blob n b -> of_word32s (word32s b) = b.
Proof.
  induction n as [|n IH]; intros b [W L].
  - destruct b; [reflexivity|discriminate L].
  - destruct b as [|b0 [|b1 [|b2 [|b3 r]]]]; cbn [length] in L; try lia.
    cbn [word32s]. unfold of_word32s. cbn [map concat]. change (concat (map (le_bytes 4) (word32s r))) with (of_word32s (word32s r)).
    assert (W4 : wf_bytes [b0; b1; b2; b3]).
    { do 4 (apply Forall_cons_iff in W; destruct W as [? W]). repeat (constructor; [assumption|]). constructor. }
    rewrite (bytes_to_le [b0; b1; b2; b3] W4 : le_bytes 4 _ = _).
    rewrite IH; [reflexivity|]. split; [|lia]. do 4 (apply Forall_cons_iff in W; destruct W as [? W]). exact W.
Qed.

(** FNV. *)
Lemma fnv1_ok u v : word v -> fnv1 u v = fnv u v /\ word (fnv u v).
Proof.
  intros V. split.
  - unfold fnv1, fnv, mul32. change fnv_prime with FNV_PRIME. rewrite <- !N.land_ones.
    apply N.bits_inj. intros i. rewrite N.lxor_spec, !N.land_spec, N.lxor_spec.
    destruct (N.lt_ge_cases i 32) as [L|G].
    + rewrite N.ones_spec_low by exact L. rewrite !andb_true_r. reflexivity.
    + rewrite N.ones_spec_high by exact G. rewrite !andb_false_r.
      rewrite <- (N.mod_small v (2 ^ 32)) by exact V. rewrite N.mod_pow2_bits_high by exact G. reflexivity.
  - apply N.mod_lt. discriminate.
Qed.
Lemma both_fnv : forall a b, Forall word b -> both fnv1 a b = zip fnv a b /\ Forall word (zip fnv a b).
Proof.
  unfold both, zip. induction a as [|x a IH]; intros [|y b] W; try (split; [reflexivity|constructor]).
  apply Forall_cons_iff in W. destruct W as [Y W]. destruct (IH b W) as [E F]. destruct (fnv1_ok x y Y) as [E1 F1].
  cbn [combine map fst snd]. split; [rewrite E1, E; reflexivity|constructor; assumption].
Qed.
Lemma zip_length f a b : length (zip f a b) = Nat.min (length a) (length b).
Proof. unfold zip. rewrite map_length, combine_length. reflexivity. Qed.

(** Exclusive or on the 64-bit view is exclusive or on the 32-bit view. *)
Lemma lxor_low x y : N.lxor x y mod 256 = N.lxor (x mod 256) (y mod 256).
Proof.
  change 256 with (2 ^ 8). rewrite <- !N.land_ones. apply N.bits_inj. intros i.
  rewrite N.lxor_spec, !N.land_spec, N.lxor_spec. destruct (N.testbit (N.ones 8) i); rewrite ?andb_true_r, ?andb_false_r; reflexivity.
Qed.
Lemma lxor_high x y : N.lxor x y / 256 = N.lxor (x / 256) (y / 256).
Proof. change 256 with (2 ^ 8). rewrite <- !N.shiftr_div_pow2. apply N.shiftr_lxor. Qed.
Lemma le_bytes_xor : forall a b, wf_bytes a -> wf_bytes b -> length a = length b ->
  le_bytes (length a) (N.lxor (le_to_N a) (le_to_N b)) = zip N.lxor a b.
Proof.
  induction a as [|x a IH]; intros [|y b] A B L; try discriminate L; [reflexivity|].
  apply Forall_cons_iff in A, B. destruct A as [X A], B as [Y B]. unfold wf_byte in X, Y.
  cbn [length le_bytes le_to_N]. rewrite lxor_low, lxor_high.
  replace ((x + 256 * le_to_N a) mod 256) with x by lia. replace ((y + 256 * le_to_N b) mod 256) with y by lia.
  replace ((x + 256 * le_to_N a) / 256) with (le_to_N a) by lia. replace ((y + 256 * le_to_N b) / 256) with (le_to_N b) by lia.
  rewrite IH by (auto; cbn [length] in L; lia). reflexivity.
Qed.
Lemma xor_view32 : forall n a b, blob n a -> blob n b -> of_word32s (zip N.lxor (word32s a) (word32s b)) = zip N.lxor a b.
Proof.
  induction n as [|n IH]; intros a b [Wa La] [Wb Lb].
  - destruct a; [|discriminate La]. destruct b; [reflexivity|discriminate Lb].
  - destruct a as [|a0 [|a1 [|a2 [|a3 r]]]]; cbn [length] in La; try lia.
    destruct b as [|b0 [|b1 [|b2 [|b3 q]]]]; cbn [length] in Lb; try lia.
    assert (Lr : length r = (4 * n)%nat) by lia. assert (Lq : length q = (4 * n)%nat) by lia. clear La Lb.
    change (a0 :: a1 :: a2 :: a3 :: r) with ([a0; a1; a2; a3] ++ r) in *. change (b0 :: b1 :: b2 :: b3 :: q) with ([b0; b1; b2; b3] ++ q) in *.
    apply Forall_app in Wa, Wb. destruct Wa as [Wa Wr], Wb as [Wb Wq].
    pose proof (le_bytes_xor _ _ Wa Wb eq_refl) as E. pose proof (IH r q (conj Wr Lr) (conj Wq Lq)) as E2.
    cbn [app word32s]. unfold zip at 1. cbn [combine map fst snd]. unfold of_word32s at 1. cbn [map concat].
    rewrite (E : le_bytes 4 _ = _).
    change (zip N.lxor [a0; a1; a2; a3] [b0; b1; b2; b3] ++ of_word32s (zip N.lxor (word32s r) (word32s q)) = zip N.lxor (a0 :: a1 :: a2 :: a3 :: r) (b0 :: b1 :: b2 :: b3 :: q)).
    rewrite E2. reflexivity.
Qed.
Lemma xor_view64 : forall n a b, blob (2 * n) a -> blob (2 * n) b -> xor_512 a b = zip N.lxor a b.
Proof.
  unfold xor_512. induction n as [|n IH]; intros a b [Wa La] [Wb Lb].
  - destruct a; [|discriminate La]. destruct b; [reflexivity|discriminate Lb].
  - destruct a as [|a0 [|a1 [|a2 [|a3 [|a4 [|a5 [|a6 [|a7 r]]]]]]]]; cbn [length] in La; try lia.
    destruct b as [|b0 [|b1 [|b2 [|b3 [|b4 [|b5 [|b6 [|b7 q]]]]]]]]; cbn [length] in Lb; try lia.
    assert (Lr : length r = (4 * (2 * n))%nat) by lia. assert (Lq : length q = (4 * (2 * n))%nat) by lia. clear La Lb.
    change (a0 :: a1 :: a2 :: a3 :: a4 :: a5 :: a6 :: a7 :: r) with ([a0; a1; a2; a3; a4; a5; a6; a7] ++ r) in *.
    change (b0 :: b1 :: b2 :: b3 :: b4 :: b5 :: b6 :: b7 :: q) with ([b0; b1; b2; b3; b4; b5; b6; b7] ++ q) in *.
    apply Forall_app in Wa, Wb. destruct Wa as [Wa Wr], Wb as [Wb Wq].
    pose proof (le_bytes_xor _ _ Wa Wb eq_refl) as E. pose proof (IH r q (conj Wr Lr) (conj Wq Lq)) as E2.
    cbn [app word64s]. unfold both at 1. cbn [combine map fst snd]. unfold of_word64s at 1. cbn [map concat].
    rewrite (E : le_bytes 8 _ = _).
    change (zip N.lxor [a0; a1; a2; a3; a4; a5; a6; a7] [b0; b1; b2; b3; b4; b5; b6; b7] ++ of_word64s (both N.lxor (word64s r) (word64s q)) =
            zip N.lxor (a0 :: a1 :: a2 :: a3 :: a4 :: a5 :: a6 :: a7 :: r) (b0 :: b1 :: b2 :: b3 :: b4 :: b5 :: b6 :: b7 :: q)).
    rewrite E2. reflexivity.
Qed.
Lemma zip_comm f a b : (forall x y, f x y = f y x) -> zip f a b = zip f b a.
Proof.
  intros C. unfold zip. revert b. induction a as [|x a IH]; intros [|y b]; try reflexivity. cbn [combine map fst snd]. rewrite C, IH. reflexivity.
Qed.
Lemma zip_xor_wf : forall n a b, blob n a -> blob n b -> blob n (zip N.lxor a b).
Proof.
  intros n a b A B. rewrite <- (xor_view32 n a b A B). split; [apply of_word32s_wf|].
  rewrite of_word32s_length, zip_length. rewrite !(word32s_length n) by (apply A || apply B). lia.
Qed.
Lemma xor_512_ok a b : blob 16 a -> blob 16 b -> xor_512 a b = serialize (zip N.lxor (word32s b) (word32s a)) /\ wf_bytes (xor_512 a b).
Proof.
  intros A B. rewrite (xor_view64 8 a b A B). split; [|apply (zip_xor_wf 16 a b A B)].
  rewrite <- of_word32s_spec, (zip_comm N.lxor (word32s b)) by apply N.lxor_comm. symmetry. apply (xor_view32 16); assumption.
Qed.

(** The hash function. *)
Lemma hash512 m : wf_bytes m -> exists h, keccak512 m = Some h /\ blob 16 h /\ word32s h = sha3_512 m.
Proof.
  intros W. exists (keccak_digest 512 m). split; [apply keccak512_ok, W|]. split.
  - split; [apply digest_wf|]. rewrite digest_length. reflexivity.
  - apply word32s_spec.
Qed.
Lemma hash256_ok m : wf_bytes m -> exists h, keccak256 m = Some h /\ blob 8 h /\ h = keccak_digest 256 m.
Proof.
  intros W. exists (keccak_digest 256 m). split; [apply keccak256_ok, W|]. split; [|reflexivity].
  split; [apply digest_wf|]. rewrite digest_length. reflexivity.
Qed.
Lemma blob_serialize b : blob 16 b -> serialize (word32s b) = b.
Proof. intros B. rewrite <- of_word32s_spec. apply (bytes_back 16), B. Qed.

(** A context with its cache. *)
Definition good_context (c : epoch_context) : Prop :=
  ec_light_cache_num_items c = N.of_nat (length (ec_light_cache c)) /\ 0 < ec_light_cache_num_items c < 2 ^ 32 /\
  Forall (blob 16) (ec_light_cache c).
Definition spec_cache (c : epoch_context) : list (list N) := map word32s (ec_light_cache c).

Lemma cache_read cache i : Forall (blob 16) cache -> (i < length cache)%nat ->
  exists b, nth_error cache i = Some b /\ blob 16 b /\ item (map word32s cache) i = word32s b.
Proof.
  intros F L. destruct (nth_error cache i) as [b|] eqn:E; [|apply nth_error_None in E; lia].
  exists b. split; [reflexivity|]. split.
  - rewrite Forall_forall in F. apply F. apply nth_error_In in E. exact E.
  - unfold item. change (@nil N) with (word32s []). rewrite map_nth. rewrite (nth_error_nth _ _ _ E). reflexivity.
Qed.
Lemma mod32_ok a n : 0 < n -> mod32 a n = Some (a mod n) /\ a mod n < n.
Proof. intros L. unfold mod32. destruct (N.eqb_spec n 0); [lia|]. split; [reflexivity|]. apply N.mod_lt. lia. Qed.

Lemma nth_words b j : blob 16 b -> (j < 16)%nat -> exists w, nth_error (word32s b) j = Some w /\ nth j (word32s b) 0 = w /\ word w.
Proof.
  intros B J. pose proof (word32s_length 16 b (proj2 B)) as L.
  destruct (nth_error (word32s b) j) as [w|] eqn:E; [|apply nth_error_None in E; lia].
  exists w. split; [reflexivity|]. split; [apply nth_error_nth, E|].
  pose proof (word32s_wf 16 b B) as F. rewrite Forall_forall in F. apply F. apply nth_error_In in E. exact E.
Qed.

Lemma word32s_app : forall m a b, length a = (4 * m)%nat -> word32s (a ++ b) = word32s a ++ word32s b.
Proof.
  induction m as [|m IH]; intros a b L.
  - destruct a; [reflexivity|discriminate L].
  - destruct a as [|a0 [|a1 [|a2 [|a3 r]]]]; cbn [length] in L; try lia. cbn [app word32s]. rewrite IH by lia. reflexivity.
Qed.

Section Items.
  Variable c : epoch_context.
  Hypothesis Good : good_context c.
  Let n := N.of_nat (length (spec_cache c)).

  Lemma n_items : ec_light_cache_num_items c = n.
  Proof. unfold n, spec_cache. rewrite map_length. apply Good. Qed.

  Lemma cache_at i : i < n -> exists b, nth_error (ec_light_cache c) (N.to_nat i) = Some b /\ blob 16 b /\
    item (spec_cache c) (N.to_nat i) = word32s b.
  Proof.
    intros L. apply cache_read; [apply Good|]. unfold n, spec_cache in L. rewrite map_length in L. lia.
  Qed.

  Definition spec_init (i : N) : list N :=
    sha3_512 (serialize (zip N.lxor (item (spec_cache c) (N.to_nat (i mod n))) (i :: repeat 0 15))).
  Definition spec_step (i : N) (mix : list N) (j : nat) : list N :=
    let cache_index := fnv (N.lxor i (N.of_nat j)) (nth (j mod 16) mix 0) in
    zip fnv mix (item (spec_cache c) (N.to_nat (cache_index mod n))).

  Lemma zip_zero : forall l, zip N.lxor l (repeat 0 (length l)) = l.
  Proof. unfold zip. induction l as [|x l IH]; [reflexivity|]. cbn [length repeat combine map fst snd]. rewrite N.lxor_0_r, IH. reflexivity. Qed.

  Lemma item_init_ok i : exists mix, item_init c i = Some mix /\ blob 16 mix /\ word32s mix = spec_init i.
  Proof.
    unfold item_init. rewrite n_items. destruct Good as (E & Pos & F). rewrite n_items in Pos.
    destruct (mod32_ok i n ltac:(lia)) as [-> Lt].
    destruct (cache_at _ Lt) as (b & -> & B & Eb).
    unfold spec_init. rewrite Eb. unfold xor_first.
    pose proof (word32s_length 16 b (proj2 B)) as L16.
    destruct (word32s b) as [|a r]; [discriminate L16|]. cbn [length] in L16.
    change (zip N.lxor (a :: r) (i :: repeat 0 15)) with (N.lxor a i :: zip N.lxor r (repeat 0 15)).
    assert (Z : zip N.lxor r (repeat 0 15) = r).
    { assert (Lr : length r = 15%nat) by lia. rewrite <- Lr. apply zip_zero. }
    rewrite Z, of_word32s_spec.
    destruct (hash512 (serialize (N.lxor a i :: r))) as (h & E1 & E2 & E3); [rewrite <- of_word32s_spec; apply of_word32s_wf|].
    exists h. auto.
  Qed.

  Lemma item_update_ok i j mix : blob 16 mix ->
    exists mix', item_update c i j mix = Some mix' /\ blob 16 mix' /\ word32s mix' = spec_step i (word32s mix) j.
  Proof.
    intros B. unfold item_update, spec_step. rewrite n_items. destruct Good as (E & Pos & F). rewrite n_items in Pos.
    destruct (nth_words mix (j mod 16) B ltac:(lia)) as (w & -> & -> & Ww).
    rewrite (proj1 (fnv1_ok (N.lxor i (N.of_nat j)) w Ww)).
    destruct (mod32_ok (fnv (N.lxor i (N.of_nat j)) w) n ltac:(lia)) as [-> Lt].
    destruct (cache_at _ Lt) as (b & -> & Bb & Eb). rewrite Eb.
    unfold fnv1_512. destruct (both_fnv (word32s mix) (word32s b) (word32s_wf 16 b Bb)) as [-> Fw].
    exists (of_word32s (zip fnv (word32s mix) (word32s b))). split; [reflexivity|]. split.
    - split; [apply of_word32s_wf|]. rewrite of_word32s_length, zip_length, !(word32s_length 16) by (apply B || apply Bb). reflexivity.
    - apply words_back, Fw.
  Qed.

  Lemma item_rounds_ok i0 i1 : forall count j m0 m1, blob 16 m0 -> blob 16 m1 ->
    exists m0' m1', item_rounds count j c i0 i1 m0 m1 = Some (m0', m1') /\ blob 16 m0' /\ blob 16 m1' /\
      word32s m0' = fold_left (spec_step i0) (seq j count) (word32s m0) /\
      word32s m1' = fold_left (spec_step i1) (seq j count) (word32s m1).
  Proof.
    induction count as [|k IH]; intros j m0 m1 B0 B1; cbn [item_rounds seq fold_left].
    - exists m0, m1. auto.
    - destruct (item_update_ok i0 j m0 B0) as (x0 & -> & X0 & E0). destruct (item_update_ok i1 j m1 B1) as (x1 & -> & X1 & E1).
      rewrite <- E0, <- E1. replace (S j) with (j + 1)%nat by lia. apply IH; assumption.
  Qed.

  Lemma dataset_item_unfold i : dataset_item (spec_cache c) i =
    sha3_512 (serialize (fold_left (spec_step i) (seq 0 DATASET_PARENTS) (spec_init i))).
  Proof. reflexivity. Qed.

  Lemma dataset_item_1024_ok p : 2 * p + 1 < 2 ^ 32 ->
    exists d, calculate_dataset_item_1024 c p = Some d /\ blob 32 d /\
      word32s d = dataset_item (spec_cache c) (2 * p) ++ dataset_item (spec_cache c) (2 * p + 1).
  Proof.
    intros L. unfold calculate_dataset_item_1024.
    assert (E0 : mul32 p 2 = 2 * p) by (unfold mul32; rewrite (N.mul_comm p 2); apply N.mod_small; lia).
    rewrite E0. assert (E1 : add32 (2 * p) 1 = 2 * p + 1) by (unfold add32; apply N.mod_small; exact L). rewrite E1. clear E0 E1.
    destruct (item_init_ok (2 * p)) as (m0 & -> & B0 & I0). destruct (item_init_ok (2 * p + 1)) as (m1 & -> & B1 & I1).
    destruct (item_rounds_ok (2 * p) (2 * p + 1) full_dataset_item_parents 0 m0 m1 B0 B1) as (x0 & x1 & -> & X0 & X1 & F0 & F1).
    destruct (hash512 x0 (proj1 X0)) as (h0 & -> & H0 & G0). destruct (hash512 x1 (proj1 X1)) as (h1 & -> & H1 & G1).
    exists (h0 ++ h1). split; [reflexivity|]. split.
    - split; [apply Forall_app; split; [apply H0|apply H1]|]. rewrite app_length, (proj2 H0), (proj2 H1). reflexivity.
    - rewrite (word32s_app 16) by apply H0. rewrite !dataset_item_unfold. rewrite G0, G1.
      change DATASET_PARENTS with full_dataset_item_parents.
      rewrite <- I0, <- I1, <- F0, <- F1. rewrite !blob_serialize by assumption. reflexivity.
  Qed.
End Items.
