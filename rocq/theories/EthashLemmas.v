(** C71-C73 in final form. *)
From Verif Require Import Base BaseFacts KeccakSpec KeccakModel KeccakCases EthashSpec EthashModel EthashProofs EthashProofs2 EthashProofs3.

Lemma pow_result_wf s m : wf_bytes (pow_result s m) /\ length (pow_result s m) = 32%nat.
Proof. unfold pow_result. split; [apply digest_wf|apply digest_length]. Qed.

Local Opaque keccak_digest mix_digest pow_result hashimoto_seed serialize sha3_512.

(** ** Verification, for every history of calls. *)
Record pow_call := mkCall { pc_number : N; pc_header : bytes; pc_mix : bytes; pc_nonce : N; pc_boundary : bytes }.
Definition call_ok (x : pow_call) : Prop :=
  epoch_range (pc_number x / EPOCH_LENGTH) /\ hash32 (pc_header x) /\ hash32 (pc_mix x) /\ pc_nonce x < 2 ^ 64 /\ hash32 (pc_boundary x).
(** The calls one after the other, memory being available, from the state of the static variable. *)
Fixpoint verify_calls (cached : option epoch_context) (xs : list pow_call) : option (list verification_result) :=
  match xs with
  | [] => Some []
  | x :: r =>
    match verify_full_block true cached (pc_number x) (pc_header x) (pc_mix x) (pc_nonce x) (pc_boundary x) with
    | Some (v, cached') => match verify_calls cached' r with Some vs => Some (v :: vs) | None => None end
    | None => None
    end
  end.

Lemma hashimoto_unique number header nonce a b :
  block_hashimoto number header nonce a -> block_hashimoto number header nonce b -> a = b.
Proof.
  intros (c1 & f1 & C1 & F1 & ->) (c2 & f2 & C2 & F2 & ->).
  rewrite (largest_unique _ _ _ C1 C2), (largest_unique _ _ _ F1 F2). reflexivity.
Qed.

Lemma verify_block_ok cached x : call_ok x -> (forall c, cached = Some c -> exists e, context_of e c) ->
  exists v c' mr, verify_full_block true cached (pc_number x) (pc_header x) (pc_mix x) (pc_nonce x) (pc_boundary x) = Some (v, Some c') /\
    (exists e, context_of e c') /\ block_hashimoto (pc_number x) (pc_header x) (pc_nonce x) mr /\
    judged (pc_header x) (pc_mix x) (pc_nonce x) (pc_boundary x) mr v.
Proof.
  intros (R & H & M & _ & B) Inv. unfold verify_full_block.
  change epoch_length with EPOCH_LENGTH. set (e := pc_number x / EPOCH_LENGTH) in *.
  assert (Em : e mod 2 ^ 32 = e).
  { apply N.mod_small. unfold epoch_range in R. change (2 ^ 15 - 2 ^ 7) with 32640 in R. change (2 ^ 32) with 4294967296. lia. }
  rewrite Em.
  assert (C : exists c, match cached with
             | Some c => if ec_epoch_number c =? e then Some cached else create_epoch_context true e
             | None => create_epoch_context true e
             end = Some (Some c) /\ context_of e c).
  { destruct cached as [c|]; [|apply create_ok, R]. destruct (N.eqb_spec (ec_epoch_number c) e) as [E|D]; [|apply create_ok, R].
    exists c. split; [reflexivity|]. destruct (Inv c eq_refl) as [e' K]. assert (e' = e) by (rewrite <- E; symmetry; apply K). subst e'. exact K. }
  destruct C as (c & -> & K).
  destruct (verify_full_ok e c _ _ (pc_nonce x) _ K (proj1 H) (proj1 M) B) as (v & -> & J).
  eexists v, c, _. split; [reflexivity|]. split; [exists e; exact K|]. split; [|exact J].
  rewrite (context_hashimoto e c _ _ K). destruct K as (_ & _ & Kc & Kf & _). do 2 eexists. split; [exact Kc|]. split; [exact Kf|]. reflexivity.
Qed.

Lemma verify_history xs : Forall call_ok xs ->
  exists vs, verify_calls None xs = Some vs /\
  Forall2 (fun x v => exists mr, block_hashimoto (pc_number x) (pc_header x) (pc_nonce x) mr /\
                                 judged (pc_header x) (pc_mix x) (pc_nonce x) (pc_boundary x) mr v) xs vs.
Proof.
  assert (G : forall cached, (forall c, cached = Some c -> exists e, context_of e c) -> Forall call_ok xs ->
    exists vs, verify_calls cached xs = Some vs /\
    Forall2 (fun x v => exists mr, block_hashimoto (pc_number x) (pc_header x) (pc_nonce x) mr /\
                                   judged (pc_header x) (pc_mix x) (pc_nonce x) (pc_boundary x) mr v) xs vs).
  { induction xs as [|x xs IH]; intros cached Inv F; cbn [verify_calls].
    - exists []. split; [reflexivity|constructor].
    - apply Forall_cons_iff in F. destruct F as [Fx F].
      destruct (verify_block_ok cached x Fx Inv) as (v & c' & mr & -> & K & Hm & J).
      destruct (IH (Some c') ltac:(intros c [= <-]; exact K) F) as (vs & -> & Fv).
      exists (v :: vs). split; [reflexivity|]. constructor; [exists mr; auto|exact Fv]. }
  apply (G None). discriminate.
Qed.

Lemma hashimoto_result full lookup header nonce :
  snd (hashimoto full lookup header nonce) = pow_result (hashimoto_seed header nonce) (fst (hashimoto full lookup header nonce)).
Proof. unfold hashimoto. cbv zeta. cbn [fst snd]. reflexivity. Qed.

(** Accepted: the mix hash is that of the header and the result does not exceed the boundary. *)
Lemma accepted_iff header mix nonce boundary number mr v :
  block_hashimoto number header nonce mr -> judged header mix nonce boundary mr v ->
  (v = kOk <-> exists r, block_hashimoto number header nonce (mix, r) /\ be_to_N r <= be_to_N boundary).
Proof.
  intros B J. assert (Er : snd mr = pow_result (hashimoto_seed header nonce) (fst mr)).
  { destruct B as (nc & nf & _ & _ & ->). unfold hashimoto_light. apply hashimoto_result. }
  split.
  - intros ->. destruct J as [Le ->]. exists (snd mr). split; [destruct mr; exact B|]. rewrite Er. exact Le.
  - intros (r & Br & Le). assert (E : mr = (mix, r)) by exact (hashimoto_unique _ _ _ _ _ B Br). subst mr. cbn [fst snd] in *.
    rewrite Er in Le. destruct v; unfold judged in J; cbn [fst] in J; [reflexivity| |].
    + exfalso. lia.
    + exfalso. apply (proj2 J). reflexivity.
Qed.

(** The boundary of a difficulty. *)
Lemma boundary_value d : 1 <= d -> d < 2 ^ 256 -> be_to_N (get_boundary_from_diff d) = (2 ^ 256 - 1) / d /\ hash32 (get_boundary_from_diff d).
Proof.
  intros L1 L2. unfold get_boundary_from_diff.
  assert (Q : (2 ^ 256 - 1) / d < 256 ^ N.of_nat 32).
  { change (256 ^ N.of_nat 32) with (2 ^ 256). apply N.le_lt_trans with (2 ^ 256 - 1); [|reflexivity].
    apply N.div_le_upper_bound; [lia|]. nia. }
  destruct (N.ltb_spec 1 d) as [L|G].
  - split; [apply be_to_N_be_fixed_small, Q|]. split; [apply be_fixed_wf|apply be_fixed_length].
  - replace d with 1 by lia. rewrite N.div_1_r. split; [apply be_to_N_be_fixed_small; reflexivity|].
    split; [apply be_fixed_wf|apply be_fixed_length].
Qed.

Lemma result_below number header nonce m r : block_hashimoto number header nonce (m, r) -> hash32 r.
Proof.
  intros (nc & nf & _ & _ & E). apply (f_equal snd) in E. cbn [snd] in E. unfold hashimoto_light, hashimoto in E. cbn [snd] in E.
  subst r. apply pow_result_wf.
Qed.
Lemma hash32_below r : hash32 r -> be_to_N r < 2 ^ 256.
Proof.
  intros [W L]. pose proof (be_to_N_bound r W) as B. unfold blen in B. rewrite L in B. change (256 ^ N.of_nat 32) with (2 ^ 256) in B. exact B.
Qed.

Lemma quotient_le d : 0 < d -> (2 ^ 256 - 1) / d <= 2 ^ 256 / d.
Proof. intros D. apply N.div_le_mono; [lia|]. apply N.le_sub_l. Qed.
Lemma quotient_eq d : 1 < d -> ~ N.divide d (2 ^ 256) -> (2 ^ 256 - 1) / d = 2 ^ 256 / d.
Proof.
  intros D ND. generalize dependent (2 ^ 256). intros P ND. pose proof (N.div_mod P d ltac:(lia)) as E. pose proof (N.mod_lt P d ltac:(lia)) as M.
  destruct (N.eq_dec (P mod d) 0) as [Z|NZ]; [exfalso; apply ND, N.mod_divide; [lia|exact Z]|].
  symmetry. apply (N.div_unique _ _ _ (P mod d - 1)); lia.
Qed.

(** Verification of a block against its difficulty (validity.cpp:177-196), after any earlier calls. *)
Definition pow_accepts (number : N) (header mix : bytes) (nonce difficulty : N) : bool :=
  match verify_full_block true None number header mix nonce (get_boundary_from_diff difficulty) with
  | Some (kOk, _) => true
  | _ => false
  end.
Lemma pow_accepts_iff number header mix nonce d : epoch_range (number / EPOCH_LENGTH) -> hash32 header -> hash32 mix -> nonce < 2 ^ 64 -> 1 <= d -> d < 2 ^ 256 ->
  (pow_accepts number header mix nonce d = true <->
   exists r, block_hashimoto number header nonce (mix, r) /\ be_to_N r <= (2 ^ 256 - 1) / d).
Proof.
  intros R H M Nn D1 D2. destruct (boundary_value d D1 D2) as [Bv Bh].
  destruct (verify_block_ok None (mkCall number header mix nonce (get_boundary_from_diff d)) (conj R (conj H (conj M (conj Nn Bh)))) ltac:(discriminate))
    as (v & c' & mr & E & _ & Hm & J). cbn [pc_number pc_header pc_mix pc_nonce pc_boundary] in *.
  unfold pow_accepts. rewrite E. pose proof (accepted_iff _ _ _ _ _ _ _ Hm J) as A. rewrite Bv in A. rewrite <- A.
  destruct v; split; congruence.
Qed.

Lemma pow_sound number header mix nonce d : epoch_range (number / EPOCH_LENGTH) -> hash32 header -> hash32 mix -> nonce < 2 ^ 64 -> 1 <= d -> d < 2 ^ 256 ->
  pow_accepts number header mix nonce d = true -> valid_pow number header mix nonce d.
Proof.
  intros R H M Nn D1 D2 A. apply pow_accepts_iff in A; try assumption. destruct A as (r & B & Le). exists r. split; [exact B|].
  eapply N.le_trans; [exact Le|]. apply quotient_le. lia.
Qed.
Lemma pow_complete number header mix nonce d : epoch_range (number / EPOCH_LENGTH) -> hash32 header -> hash32 mix -> nonce < 2 ^ 64 -> 1 <= d -> d < 2 ^ 256 ->
  d = 1 \/ ~ N.divide d (2 ^ 256) ->
  valid_pow number header mix nonce d -> pow_accepts number header mix nonce d = true.
Proof.
  intros R H M Nn D1 D2 C (r & B & Le). apply pow_accepts_iff; try assumption. exists r. split; [exact B|].
  destruct C as [->|ND].
  - rewrite N.div_1_r. pose proof (hash32_below r (result_below _ _ _ _ _ B)). lia.
  - destruct (N.eq_dec d 1) as [->|D]; [rewrite N.div_1_r; pose proof (hash32_below r (result_below _ _ _ _ _ B)); lia|].
    rewrite quotient_eq by (try lia; exact ND). exact Le.
Qed.
(** A difficulty that is a power of two: a result that equals the bound is refused. *)
Lemma boundary_short k : 1 <= k -> k < 256 ->
  exists r, hash32 r /\ be_to_N r <= 2 ^ 256 / 2 ^ k /\ is_less_or_equal r (get_boundary_from_diff (2 ^ k)) = false.
Proof.
  intros K1 K2. set (d := 2 ^ k).
  assert (D2 : 2 <= d) by (change 2 with (2 ^ 1) at 1; apply N.pow_le_mono_r; lia).
  assert (D3 : d < 2 ^ 256) by (apply N.pow_lt_mono_r; lia).
  assert (E : 2 ^ 256 = 2 ^ (256 - k) * d) by (unfold d; rewrite <- N.pow_add_r; f_equal; lia).
  set (q := 2 ^ (256 - k)) in *.
  assert (Q1 : 2 ^ 256 / d = q) by (rewrite E; apply N.div_mul; lia).
  assert (Q0 : 0 < q) by (apply N.neq_0_lt_0, N.pow_nonzero; discriminate).
  assert (Qb : q < 256 ^ N.of_nat 32) by (change (256 ^ N.of_nat 32) with (2 ^ 256); apply N.pow_lt_mono_r; lia).
  exists (be_fixed 32 q).
  assert (Hr : hash32 (be_fixed 32 q)) by (split; [apply be_fixed_wf|apply be_fixed_length]).
  destruct (boundary_value d ltac:(lia) D3) as [Bv Bh].
  split; [exact Hr|]. rewrite be_to_N_be_fixed_small by exact Qb. split; [rewrite Q1; apply N.le_refl|].
  rewrite (is_less_or_equal_ok _ _ Hr Bh), Bv, be_to_N_be_fixed_small by exact Qb. apply N.leb_gt.
  apply N.div_lt_upper_bound; [lia|]. rewrite (N.mul_comm d q), <- E. reflexivity.
Qed.

(** Hashing and verifying. *)
Lemma hash_verifies e header nonce boundary : epoch_range e -> hash32 header -> hash32 boundary ->
  exists c r m, create_epoch_context true e = Some (Some c) /\ hash c header nonce = Some (r, m) /\
    (verify_full c header m nonce boundary = Some kOk <-> be_to_N r <= be_to_N boundary) /\
    (verify_light header m nonce boundary = Some true <-> be_to_N r <= be_to_N boundary).
Proof.
  intros R H B. destruct (create_ok e R) as (c & Ec & K).
  pose proof (hash_ok e c header nonce K (proj1 H)) as X. unfold hashimoto in X.
  set (m := mix_digest _ _ _) in X. set (r := pow_result _ _) in X. destruct X as (Eh & Hm & Hr).
  exists c, r, m. split; [exact Ec|]. split; [exact Eh|].
  destruct (verify_full_ok e c header m nonce boundary K (proj1 H) (proj1 Hm) B) as (v & Ev & J). unfold judged, hashimoto in J. fold m in J. fold r in J. cbn [fst] in J.
  split.
  - rewrite Ev. destruct v; split; try congruence; intros; try tauto; lia.
  - unfold verify_light. destruct (hash_seed_ok header nonce (proj1 H)) as (s & -> & Bs & Es).
    destruct (hash_final_ok s m Bs (proj1 Hm)) as [-> Bf]. rewrite Es. fold r. rewrite (is_less_or_equal_ok _ _ Hr B).
    generalize (be_to_N r) (be_to_N boundary). clear. intros x y. destruct (N.leb_spec x y) as [L|L]; split; intros X; [exact L|reflexivity|discriminate X|].
    exfalso. apply (N.lt_irrefl x). exact (N.le_lt_trans _ _ _ X L).
Qed.
Lemma full_implies_light e c header mix nonce boundary : context_of e c -> hash32 header -> hash32 mix -> hash32 boundary ->
  verify_full c header mix nonce boundary = Some kOk -> verify_light header mix nonce boundary = Some true.
Proof.
  intros _ _ _ _ E. unfold verify_full, verify_light in *. destruct (hash_seed header nonce) as [s|]; [|discriminate E].
  destruct (hash_final s mix) as [f|]; [|discriminate E]. destruct (is_less_or_equal f boundary); [reflexivity|discriminate E].
Qed.

(** Without memory for the cache the null pointer is dereferenced. *)
Lemma no_memory x : call_ok x ->
  verify_full_block false None (pc_number x) (pc_header x) (pc_mix x) (pc_nonce x) (pc_boundary x) = None.
Proof.
  intros (R & _). unfold verify_full_block. change epoch_length with EPOCH_LENGTH. set (e := pc_number x / EPOCH_LENGTH) in *.
  assert (Em : e mod 2 ^ 32 = e).
  { apply N.mod_small. unfold epoch_range in R. change (2 ^ 15 - 2 ^ 7) with 32640 in R. change (2 ^ 32) with 4294967296. lia. }
  rewrite Em. unfold create_epoch_context. unfold epoch_range in R. change (2 ^ 15 - 2 ^ 7) with 32640 in R.
  destruct (cache_items_ok e) as (nc & -> & _); [change (2 ^ 21 - 2 ^ 7) with 2097024; lia|].
  destruct (dataset_items_ok e) as (nf & -> & _); [change (2 ^ 16 - 2 ^ 7) with 65408; lia|]. reflexivity.
Qed.

(** ** Sizes. *)
Lemma two_refuted : find_largest_unsigned_prime 2 = Some 1 /\ largest_prime 2 2.
Proof.
  split; [reflexivity|]. split; [|split; [lia|intros q _ L; exact L]]. split; [reflexivity|].
  intros d [e E]. assert (D : d <= 2). { destruct (N.eq_dec e 0) as [->|NZ]; [lia|]. assert (1 * d <= e * d) by (apply N.mul_le_mono_r; lia). lia. }
  assert (C : d = 0 \/ d = 1 \/ d = 2) by lia. destruct C as [->|[->| ->]]; lia.
Qed.
Lemma wrapped_size : calculate_full_dataset_num_items 65408 = Some 0 /\ ~ dataset_items 65408 0.
Proof. split; [reflexivity|]. intros ((P & _) & _). discriminate P. Qed.

(** ** Seeds. *)
Section Seeds.
  Variable next : bytes -> bytes.
  Definition seed_n (n : N) : bytes := Nat.iter (N.to_nat n) next (zeros 32).
  Lemma seed_succ n : seed_n (n + 1) = next (seed_n n).
  Proof. unfold seed_n. replace (N.to_nat (n + 1)) with (S (N.to_nat n)) by lia. reflexivity. Qed.

  Lemma search_ok seed : forall tries i, exists r, search next tries i (seed_n i) seed = r /\
    match r with
    | (Some n, s) => i <= n < i + N.of_nat tries /\ s = seed_n n /\ s = seed /\ (forall j, i <= j < n -> seed_n j <> seed)
    | (None, _) => forall n, i <= n < i + N.of_nat tries -> seed_n n <> seed
    end.
  Proof.
    induction tries as [|k IH]; intros i; cbn [search].
    - eexists. split; [reflexivity|]. intros n Hn. lia.
    - unfold is_equal. destruct (bytes_eqb (seed_n i) seed) eqn:E.
      + apply bytes_eqb_eq in E. eexists. split; [reflexivity|]. cbn iota. split; [lia|]. split; [reflexivity|]. split; [exact E|]. intros j J. lia.
      + rewrite <- seed_succ. destruct (IH (i + 1)) as (r & Er & Hr). exists r. split; [exact Er|].
        assert (Ni : seed_n i <> seed) by (intros X; rewrite (proj2 (bytes_eqb_eq _ _) X) in E; discriminate E).
        destruct r as [[n|] s].
        * destruct Hr as (Ln & S1 & S2 & S3). split; [lia|]. split; [exact S1|]. split; [exact S2|].
          intros j J. destruct (N.eq_dec j i) as [->|D]; [exact Ni|]. apply S3. lia.
        * intros n Hn. destruct (N.eq_dec n i) as [->|D]; [exact Ni|]. apply Hr. lia.
  Qed.

  (** The state between calls. *)
  Definition seeds_inv (bound : N) (cached : option N * bytes) : Prop :=
    match fst cached with Some n => snd cached = seed_n n /\ n < bound | None => True end.

  Lemma tries_val : N.of_nat num_tries = 30000.
  Proof. unfold num_tries. apply N2Nat.id. Qed.

  Lemma one_call bound cached seed : seeds_inv bound cached -> 30000 <= bound -> bound < 2 ^ 32 ->
    let '(r, cached') := calculate_epoch_from_seed next cached seed in
    seeds_inv (bound + 1) cached' /\
    match r with
    | Some n => seed_n n = seed /\ n < bound + 1
    | None => forall n, n < 30000 -> seed_n n <> seed
    end.
  Proof.
    intros Inv B1 B2. unfold calculate_epoch_from_seed.
    assert (Again : let '(r, cached') := (fst (search next num_tries 0 (zeros 32) seed), search next num_tries 0 (zeros 32) seed) in
      seeds_inv (bound + 1) cached' /\ match r with Some n => seed_n n = seed /\ n < bound + 1 | None => forall n, n < 30000 -> seed_n n <> seed end).
    { destruct (search_ok seed num_tries 0) as (r & Er & Hr). change (seed_n 0) with (zeros 32) in Er. rewrite Er, tries_val in *.
      destruct r as [[n|] s]; cbn [fst].
      - destruct Hr as (Ln & S1 & S2 & _). unfold seeds_inv. cbn [fst snd]. split; [split; [exact S1|lia]|]. split; [congruence|lia].
      - split; [exact I|]. intros n Ln. apply Hr. lia. }
    destruct cached as [[n|] s]; cbn [fst snd]; [|exact Again]. destruct Inv as [Es Ln]. cbn [fst snd] in Es.
    unfold is_equal. destruct (bytes_eqb seed s) eqn:E1.
    - apply bytes_eqb_eq in E1. unfold seeds_inv. cbn [fst snd]. split; [split; [exact Es|lia]|]. split; [congruence|lia].
    - destruct (bytes_eqb (next s) seed) eqn:E2; [|exact Again]. apply bytes_eqb_eq in E2.
      assert (Ea : add32 n 1 = n + 1) by (unfold add32; apply N.mod_small; change (2 ^ 32) with 4294967296 in *; lia).
      rewrite Ea. unfold seeds_inv. cbn [fst snd]. rewrite seed_succ, <- Es.
      split; [split; [reflexivity|lia]|]. split; [exact E2|lia].
  Qed.

  Fixpoint seed_calls (cached : option N * bytes) (seeds : list bytes) : list (option N) :=
    match seeds with
    | [] => []
    | s :: r => let x := calculate_epoch_from_seed next cached s in fst x :: seed_calls (snd x) r
    end.
  Definition no_cache : option N * bytes := (None, zeros 32).

  Lemma seed_history seeds : N.of_nat (length seeds) < 2 ^ 31 ->
    Forall2 (fun seed r => match r with Some n => seed_n n = seed | None => forall n, n < 30000 -> seed_n n <> seed end)
      seeds (seed_calls no_cache seeds).
  Proof.
    assert (G : forall bound cached, seeds_inv bound cached -> 30000 <= bound -> bound + N.of_nat (length seeds) < 2 ^ 32 ->
      Forall2 (fun seed r => match r with Some n => seed_n n = seed | None => forall n, n < 30000 -> seed_n n <> seed end)
        seeds (seed_calls cached seeds)).
    { induction seeds as [|s r IH]; intros bound cached Inv B1 B2; cbn [seed_calls]; [constructor|]. cbn [length] in B2.
      pose proof (one_call bound cached s Inv B1 ltac:(lia)) as X. destruct (calculate_epoch_from_seed next cached s) as [x cached'].
      destruct X as [Inv' Hx]. cbn [fst snd]. constructor; [destruct x; [apply Hx|exact Hx]|]. apply (IH (bound + 1)); [exact Inv'|lia|lia]. }
    intros L. apply (G 30000); [exact I|apply N.le_refl|]. change (2 ^ 31) with 2147483648 in L. change (2 ^ 32) with 4294967296. lia.
  Qed.

  (** If no two epochs below a bound share a seed, the answer is the epoch. *)
  Lemma seed_answer seeds i n r : N.of_nat (length seeds) < 2 ^ 31 -> n < 30000 ->
    (forall m, seed_n m = seed_n n -> m = n) ->
    nth_error seeds i = Some (seed_n n) -> nth_error (seed_calls no_cache seeds) i = Some r -> r = Some n.
  Proof.
    intros L Ln Inj. pose proof (seed_history seeds L) as F. revert i. induction F as [|s x ss xs H F IH]; intros i Es Er.
    - destruct i; discriminate Es.
    - destruct i as [|i].
      + injection Es as ->. injection Er as ->. destruct r as [m|].
        * f_equal. apply Inj, H.
        * exfalso. exact (H n Ln eq_refl).
      + cbn [length] in L. apply (IH ltac:(lia) i Es Er).
  Qed.

  (** Beyond 30000 epochs the answer depends on the calls before. *)
  Lemma history_matters : (forall i j, i <= 30000 -> j <= 30000 -> seed_n i = seed_n j -> i = j) ->
    seed_calls no_cache [seed_n 30000] = [None] /\
    seed_calls no_cache [seed_n 29999; seed_n 30000] = [Some 29999; Some 30000].
  Proof.
    intros Inj.
    assert (Cold : calculate_epoch_from_seed next no_cache (seed_n 30000) = (None, search next num_tries 0 (zeros 32) (seed_n 30000))).
    { unfold calculate_epoch_from_seed, no_cache. cbn [fst]. destruct (search_ok (seed_n 30000) num_tries 0) as (r & Er & Hr).
      change (seed_n 0) with (zeros 32) in Er. rewrite Er, tries_val in *. destruct r as [[n|] s]; [|reflexivity].
      exfalso. destruct Hr as (Ln & S1 & S2 & _). assert (n = 30000) by (apply Inj; [lia|lia|congruence]). lia. }
    assert (Warm : calculate_epoch_from_seed next no_cache (seed_n 29999) = (Some 29999, (Some 29999, seed_n 29999))).
    { unfold calculate_epoch_from_seed, no_cache. cbn [fst]. destruct (search_ok (seed_n 29999) num_tries 0) as (r & Er & Hr).
      change (seed_n 0) with (zeros 32) in Er. rewrite Er, tries_val in *. destruct r as [[n|] s]; cbn [fst].
      - destruct Hr as (Ln & S1 & S2 & _). assert (n = 29999) by (apply Inj; [lia|lia|congruence]). subst n. rewrite S2. reflexivity.
      - exfalso. apply (Hr 29999); [lia|reflexivity]. }
    cbn [seed_calls]. rewrite Cold, Warm. cbn [fst snd]. split; [reflexivity|].
    unfold calculate_epoch_from_seed. cbn [fst snd]. unfold is_equal.
    assert (E1 : bytes_eqb (seed_n 30000) (seed_n 29999) = false).
    { destruct (bytes_eqb _ _) eqn:E; [|reflexivity]. apply bytes_eqb_eq in E. apply Inj in E; [discriminate E|lia|lia]. }
    rewrite E1. assert (Sn : next (seed_n 29999) = seed_n 30000) by (symmetry; exact (seed_succ 29999)). rewrite Sn.
    rewrite (proj2 (bytes_eqb_eq (seed_n 30000) (seed_n 30000)) eq_refl). reflexivity.
  Qed.
End Seeds.

(** A function whose seeds all differ. *)
Definition longer (b : bytes) : bytes := 1 :: b.
Lemma longer_distinct i j : seed_n longer i = seed_n longer j -> i = j.
Proof.
  assert (L : forall n, length (seed_n longer n) = (N.to_nat n + 32)%nat).
  { intros n. unfold seed_n. induction (N.to_nat n) as [|k IH]; [reflexivity|]. change (S (length (Nat.iter k longer (zeros 32))) = S (k + 32)). f_equal. exact IH. }
  intros E. apply (f_equal (@length N)) in E. rewrite !L in E. lia.
Qed.
