(** The unrolled rounds of the code are the rounds of FIPS 202. *)
From Verif Require Import Base BaseFacts KeccakSpec KeccakModel.

(** A lane of the state array held in a 64-bit word. *)
Definition lane (a : N) (f : N -> bool) : Prop := a < 2 ^ 64 /\ forall z, z < 64 -> N.testbit a z = f z.

Lemma high_bits a : a < 2 ^ 64 <-> forall z, 64 <= z -> N.testbit a z = false.
Proof.
  split.
  - intros L z Z. destruct (N.eq_dec a 0) as [->|NZ]; [apply N.bits_0|].
    apply N.bits_above_log2. apply N.log2_lt_pow2 in L; lia.
  - intros B. destruct (N.eq_dec a 0) as [->|NZ]; [reflexivity|].
    apply N.log2_lt_pow2; [lia|].
    destruct (N.lt_ge_cases (N.log2 a) 64) as [L|G]; [exact L|].
    specialize (B _ G). rewrite N.bit_log2 in B by exact NZ. discriminate B.
Qed.

Lemma lane_ext a f g : lane a f -> (forall z, z < 64 -> f z = g z) -> lane a g.
Proof. intros [L E] H. split; [exact L|]. intros z Z. rewrite E by exact Z. apply H, Z. Qed.

Lemma lane_unique a b f : lane a f -> lane b f -> a = b.
Proof.
  intros [La Ea] [Lb Eb]. apply N.bits_inj. intros z. destruct (N.lt_ge_cases z 64) as [L|G].
  - rewrite Ea, Eb by exact L. reflexivity.
  - rewrite (proj1 (high_bits a) La), (proj1 (high_bits b) Lb) by exact G. reflexivity.
Qed.

Lemma lane_xor a b f g : lane a f -> lane b g -> lane (a ^^ b) (fun z => xorb (f z) (g z)).
Proof.
  intros [La Ea] [Lb Eb]. split.
  - apply high_bits. intros z Z. rewrite N.lxor_spec.
    rewrite (proj1 (high_bits a) La), (proj1 (high_bits b) Lb) by exact Z. reflexivity.
  - intros z Z. rewrite N.lxor_spec, Ea, Eb by exact Z. reflexivity.
Qed.

Lemma lane_and a b f g : lane a f -> lane b g -> lane (N.land a b) (fun z => andb (f z) (g z)).
Proof.
  intros [La Ea] [Lb Eb]. split.
  - apply high_bits. intros z Z. rewrite N.land_spec.
    rewrite (proj1 (high_bits a) La), (proj1 (high_bits b) Lb) by exact Z. reflexivity.
  - intros z Z. rewrite N.land_spec, Ea, Eb by exact Z. reflexivity.
Qed.

Lemma lane_not a f : lane a f -> lane (not64 a) (fun z => negb (f z)).
Proof.
  intros [La Ea]. unfold not64. split.
  - apply high_bits. intros z Z. rewrite N.ldiff_spec, N.ones_spec_high by exact Z. reflexivity.
  - intros z Z. rewrite N.ldiff_spec, N.ones_spec_low by exact Z. rewrite Ea by exact Z. reflexivity.
Qed.

Lemma lane_rotl a f s : 0 < s -> s < 64 -> lane a f -> lane (rotl_64 a s) (fun z => f ((z + (64 - s)) mod 64)).
Proof.
  intros S0 S1 [La Ea]. unfold rotl_64.
  assert (K : N.land ((2 ^ 32 - s) mod 2 ^ 32) 63 = 64 - s).
  { change 63 with (N.ones 6). rewrite N.land_ones. change (2 ^ 32) with 4294967296. change (2 ^ 6) with 64.
    rewrite (N.mod_small (4294967296 - s)) by lia. lia. }
  rewrite K. clear K. split.
  - apply high_bits. intros z Z. rewrite N.lor_spec, N.mod_pow2_bits_high by exact Z.
    rewrite N.shiftr_spec by lia. cbn [orb]. apply (proj1 (high_bits a) La). lia.
  - intros z Z. rewrite N.lor_spec, N.mod_pow2_bits_low by exact Z.
    rewrite N.shiftr_spec by lia.
    destruct (N.lt_ge_cases z s) as [L|G].
    + rewrite N.shiftl_spec_low by exact L. cbn [orb].
      rewrite (N.mod_small (z + (64 - s))) by lia. apply Ea. lia.
    + rewrite N.shiftl_spec_high by lia.
      rewrite (proj1 (high_bits a) La (z + (64 - s))) by lia. rewrite orb_false_r.
      replace ((z + (64 - s)) mod 64) with (z - s) by lia. apply Ea. lia.
Qed.

(** The round constants are those of the shift register. *)
Lemma round_constants_ok : forall n, (n < 24)%nat -> lane (round_constant n) (RC n).
Proof.
  assert (K : forallb (fun n => (round_constant n <? 2 ^ 64) &&
             forallb (fun z => eqb (N.testbit (round_constant n) (N.of_nat z)) (RC n (N.of_nat z))) (seq 0 64))
             (seq 0 24) = true) by (vm_compute; reflexivity).
  intros n Ln. rewrite forallb_forall in K. specialize (K n). rewrite in_seq in K.
  specialize (K ltac:(lia)). apply andb_prop in K. destruct K as [K1 K2]. split.
  - apply N.ltb_lt, K1.
  - intros z Z. rewrite forallb_forall in K2. specialize (K2 (N.to_nat z)). rewrite in_seq in K2.
    specialize (K2 ltac:(lia)). rewrite N2Nat.id in K2. apply eqb_prop, K2.
Qed.

(** A state of 25 words holds a state array. *)
Definition holds (s : list N) (A : array) : Prop :=
  length s = 25%nat /\
  forall x y, (x < 5)%nat -> (y < 5)%nat -> lane (nth (5 * y + x) s 0) (A x y).

Lemma five x : (x < 5)%nat -> x = 0%nat \/ x = 1%nat \/ x = 2%nat \/ x = 3%nat \/ x = 4%nat.
Proof. lia. Qed.

Lemma rho_offsets : forall x y, (x < 5)%nat -> (y < 5)%nat ->
  rho_offset x y mod 64 =
  nth (5 * y + x) [0; 1; 62; 28; 27; 36; 44; 6; 55; 20; 3; 10; 43; 25; 39; 41; 45; 15; 21; 8; 18; 2; 61; 56; 14] 0.
Proof.
  intros x y X Y. destruct (five x X) as [->|[->|[->|[->| ->]]]], (five y Y) as [->|[->|[->|[->| ->]]]];
    reflexivity.
Qed.

(** The bits of a lane after a round, written out. *)
Definition rho_b (A : array) (o : N) (x y : nat) (z : N) : bool := theta A x y ((z + (64 - o)) mod 64).

Ltac lane_step :=
  first [ eassumption
        | apply lane_xor | apply lane_and | apply lane_not | (apply lane_rotl; [reflexivity|reflexivity|]) ].

Lemma lane_theta a f d g : lane a f -> lane d g -> lane (a ^^ d) (fun z => xorb (f z) (g z)).
Proof. apply lane_xor. Qed.

Lemma lane_chi a b c f g h : lane a f -> lane b g -> lane c h ->
  lane (a ^^ N.land (not64 b) c) (fun z => xorb (f z) (andb (negb (g z)) (h z))).
Proof. intros Ha Hb Hc. apply lane_xor; [exact Ha|]. apply lane_and; [apply lane_not; exact Hb|exact Hc]. Qed.

Section Round.
  Variable A : array.

  Definition PR (x y : nat) : N -> bool := pi (rho (theta A)) x y.

  Lemma column x a0 a1 a2 a3 a4 :
    lane a0 (A x 0%nat) -> lane a1 (A x 1%nat) -> lane a2 (A x 2%nat) -> lane a3 (A x 3%nat) -> lane a4 (A x 4%nat) ->
    lane ((((a0 ^^ a1) ^^ a2) ^^ a3) ^^ a4) (theta_C A x).
  Proof.
    intros H0 H1 H2 H3 H4. apply (lane_xor _ _ _ _ (lane_xor _ _ _ _ (lane_xor _ _ _ _ (lane_xor _ _ _ _ H0 H1) H2) H3) H4).
  Qed.

  Lemma effect x a b : lane a (theta_C A ((x + 4) mod 5)%nat) -> lane b (theta_C A ((x + 1) mod 5)%nat) ->
    lane (a ^^ rotl_64 b 1) (theta_D A x).
  Proof.
    intros Ha Hb. apply (lane_xor _ _ _ _ Ha). exact (lane_rotl _ _ 1 eq_refl eq_refl Hb).
  Qed.

  (** The lane that [pi] moves to (x, y). *)
  Lemma moved x y a d s : 0 < s -> s < 64 ->
    rho_offset ((x + 3 * y) mod 5) x mod 64 = s ->
    lane a (A ((x + 3 * y) mod 5)%nat x) -> lane d (theta_D A ((x + 3 * y) mod 5)%nat) ->
    lane (rotl_64 (a ^^ d) s) (PR x y).
  Proof.
    intros S0 S1 O Ha Hd. eapply lane_ext; [exact (lane_rotl _ _ s S0 S1 (lane_xor _ _ _ _ Ha Hd))|].
    intros z Z. cbv beta. unfold PR, pi, rho. rewrite O. reflexivity.
  Qed.
  Lemma unmoved a d : lane a (A 0%nat 0%nat) -> lane d (theta_D A 0%nat) -> lane (a ^^ d) (PR 0 0).
  Proof.
    intros Ha Hd. eapply lane_ext; [exact (lane_xor _ _ _ _ Ha Hd)|].
    intros z Z. cbv beta. unfold PR, pi, rho. change ((0 + 3 * 0) mod 5)%nat with 0%nat.
    change (rho_offset 0 0 mod 64) with 0. replace ((z + (64 - 0)) mod 64) with z by lia. reflexivity.
  Qed.

  Variable ir : nat.
  Lemma chi_lane x y a b c :
    (x <> 0 \/ y <> 0)%nat ->
    lane a (PR x y) -> lane b (PR ((x + 1) mod 5)%nat y) -> lane c (PR ((x + 2) mod 5)%nat y) ->
    lane (a ^^ N.land (not64 b) c) (round ir A x y).
  Proof.
    intros NZ Ha Hb Hc. eapply lane_ext; [exact (lane_chi _ _ _ _ _ _ Ha Hb Hc)|].
    intros z Z. cbv beta. unfold round, iota. destruct x; [destruct y; [lia|]|]; reflexivity.
  Qed.
  Hypothesis IR : (ir < 24)%nat.
  Lemma chi_lane0 a b c :
    lane a (PR 0 0) -> lane b (PR 1 0) -> lane c (PR 2 0) ->
    lane (a ^^ N.land (not64 b) c ^^ round_constant ir) (round ir A 0%nat 0%nat).
  Proof.
    intros Ha Hb Hc.
    eapply lane_ext; [exact (lane_xor _ _ _ _ (lane_chi _ _ _ _ _ _ Ha Hb Hc) (round_constants_ok ir IR))|].
    intros z Z. reflexivity.
  Qed.
End Round.
