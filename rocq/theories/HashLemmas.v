(** The constants of the hash functions, and the precompiled contracts in their final form. *)
From Verif Require Import Base BaseFacts KeccakModel Sha256Spec Sha256Model Sha256Proofs RipemdModel RipemdSpec RipemdProofs RipemdProofs2
  Blake2Model Blake2Spec Blake2Proofs.

(** ** Roots of primes. *)
Lemma root_from_ok k target : k <> 0 -> forall bits r, r ^ k <= target -> target < (r + 2 ^ N.of_nat bits) ^ k ->
  let c := root_from k target bits r in c ^ k <= target /\ target < (c + 1) ^ k.
Proof.
  intros K. induction bits as [|b IH]; intros r L U; cbn [root_from].
  - change (2 ^ N.of_nat 0) with 1 in U. split; assumption.
  - assert (E : 2 ^ N.of_nat (S b) = 2 ^ N.of_nat b + 2 ^ N.of_nat b) by (rewrite Nat2N.inj_succ, N.pow_succ_r'; lia).
    rewrite E in U. destruct (N.leb_spec ((r + 2 ^ N.of_nat b) ^ k) target) as [G|G]; apply IH; try assumption.
    rewrite <- N.add_assoc. exact U.
Qed.
Lemma root_bits_ok k p bits : k <> 0 -> p < 2 ^ (8 * k) -> is_root k p bits (root_bits k p bits).
Proof.
  intros K P. unfold root_bits. set (target := p * 2 ^ (k * bits)).
  destruct (root_from_ok k target K (N.to_nat (bits + 8)) 0) as [A B].
  - rewrite N.pow_0_l by exact K. apply N.le_0_l.
  - rewrite N2Nat.id, N.add_0_l, <- N.pow_mul_r. unfold target. replace ((bits + 8) * k) with (8 * k + k * bits) by lia. rewrite N.pow_add_r.
    apply N.mul_lt_mono_pos_r; [|exact P]. apply N.neq_0_lt_0, N.pow_nonzero. discriminate.
  - eexists. split; [exact A|]. split; [exact B|reflexivity].
Qed.
Lemma is_root_unique k p bits c d : k <> 0 -> is_root k p bits c -> is_root k p bits d -> c = d.
Proof.
  intros K (r & A & B & ->) (s & C & D & ->). f_equal.
  assert (L : r < s + 1) by (apply (N.pow_lt_mono_l_iff r (s + 1) k K); eapply N.le_lt_trans; eassumption).
  assert (M : s < r + 1) by (apply (N.pow_lt_mono_l_iff s (r + 1) k K); eapply N.le_lt_trans; eassumption).
  lia.
Qed.

Definition no_divisor (n : N) : bool := forallb (fun d => negb (n mod d =? 0)) (map N.of_nat (seq 2 (N.to_nat n - 2))).
Lemma no_divisor_ok n : no_divisor n = true <-> (forall d, 2 <= d -> d < n -> n mod d <> 0).
Proof.
  unfold no_divisor. rewrite forallb_forall. split.
  - intros A d D1 D2. specialize (A d). rewrite negb_true_iff, N.eqb_neq in A. apply A. apply in_map_iff. exists (N.to_nat d). split; [apply N2Nat.id|]. apply in_seq. lia.
  - intros A d I. apply in_map_iff in I. destruct I as (x & <- & I). apply in_seq in I. rewrite negb_true_iff, N.eqb_neq. apply A; lia.
Qed.
Lemma primes_ok p : In p primes <-> 2 <= p /\ p <= 311 /\ (forall d, 2 <= d -> d < p -> p mod d <> 0).
Proof.
  rewrite <- no_divisor_ok.
  assert (A : forallb (fun n => Bool.eqb (existsb (N.eqb n) primes) ((2 <=? n) && no_divisor n)) (map N.of_nat (seq 0 312)) = true) by (vm_compute; reflexivity).
  rewrite forallb_forall in A.
  assert (In p primes <-> existsb (N.eqb p) primes = true) as ->.
  { rewrite existsb_exists. split; [intros I; exists p; split; [exact I|apply N.eqb_refl]|intros (x & I & E); apply N.eqb_eq in E; subst; exact I]. }
  destruct (N.le_gt_cases p 311) as [L|L].
  - assert (I : In p (map N.of_nat (seq 0 312))) by (apply in_map_iff; exists (N.to_nat p); split; [apply N2Nat.id|apply in_seq; lia]).
    specialize (A p I). apply Bool.eqb_prop in A. rewrite A, andb_true_iff, N.leb_le. tauto.
  - split; [|intros (_ & B & _); lia]. intros E. exfalso.
    assert (F : forallb (fun x => x <=? 311) primes = true) by (vm_compute; reflexivity). rewrite forallb_forall in F.
    apply existsb_exists in E. destruct E as (x & I & E). apply N.eqb_eq in E. subst x. specialize (F p I). apply N.leb_le in F. lia.
Qed.
Lemma primes_small n : (n < 64)%nat -> nth n primes 0 < 2 ^ 16.
Proof.
  intros L. assert (F : forallb (fun x => x <? 2 ^ 16) primes = true) by (vm_compute; reflexivity). rewrite forallb_forall in F.
  apply N.ltb_lt, F, nth_In. exact L.
Qed.
Lemma map_at (g : N -> N) l n : (n < length l)%nat -> nth n (map g l) 0 = g (nth n l 0).
Proof. intros L. rewrite (nth_indep _ 0 (g 0)) by (rewrite map_length; exact L). apply map_nth. Qed.
Lemma constants :
  (forall t, (t < 64)%nat -> is_root 3 (nth t primes 0) 32 (nth t k 0)) /\
  (forall i, (i < 8)%nat -> is_root 2 (nth i primes 0) 32 (nth i initial_h 0)) /\
  (forall i, (i < 8)%nat -> is_root 2 (nth i primes 0) 64 (nth i blake2b_IV 0)).
Proof.
  split; [|split]; intros i L.
  - assert (E : k = map (fun p => root_bits 3 p 32) primes) by (vm_compute; reflexivity). rewrite E.
    rewrite map_at by exact L. apply root_bits_ok; [discriminate|].
    eapply N.lt_trans; [apply primes_small, L|reflexivity].
  - assert (E : initial_h = map (fun p => root_bits 2 p 32) (firstn 8 primes)) by (vm_compute; reflexivity). rewrite E.
    rewrite map_at by exact L.
    replace (nth i (firstn 8 primes) 0) with (nth i primes 0) by (do 8 (destruct i as [|i]; [reflexivity|]); lia).
    apply root_bits_ok; [discriminate|]. apply primes_small. lia.
  - assert (E : blake2b_IV = map (fun p => root_bits 2 p 64) (firstn 8 primes)) by (vm_compute; reflexivity). rewrite E.
    rewrite map_at by exact L.
    replace (nth i (firstn 8 primes) 0) with (nth i primes 0) by (do 8 (destruct i as [|i]; [reflexivity|]); lia).
    apply root_bits_ok; [discriminate|]. apply primes_small. lia.
Qed.

(** ** The contracts. *)
Lemma sha256_run_ok m : wf_bytes m -> sha256_run true m = Some (Some (sha256 m)).
Proof. intros W. unfold sha256_run. rewrite sha256_ok by exact W. reflexivity. Qed.
Lemma sha256_run_indeterminate m : sha256_run false m = None.
Proof. unfold sha256_run. rewrite sha256_indeterminate. reflexivity. Qed.
Lemma rip160_run_ok m : wf_bytes m -> blen m < 2 ^ 32 -> rip160_run m = Some (Some (zeros 12 ++ ripemd160 m)).
Proof. intros W L. unfold rip160_run. rewrite ripemd_ok by assumption. reflexivity. Qed.
(** The digest of the specification with another number in the place of the length. *)
Definition ripemd160_length (m : bytes) (T : N) : bytes :=
  let b := m ++ [128] ++ zeros (pad_zeros (length m)) ++ le_fixed 8 (8 * T) in
  let h := rmd_blocks (length b / 64) rmd_initial b in
  concat (map (le_fixed 4) [cA h; cB h; cC h; cD h; cE h]).
Lemma rip160_run_any m : wf_bytes m -> rip160_run m = Some (Some (zeros 12 ++ ripemd160_length m (blen m mod 2 ^ 32))).
Proof. intros W. unfold rip160_run. destruct (ripemd_general m W) as (h & -> & ->). reflexivity. Qed.

(** The input of [n] bytes beyond 2^32 is padded with the length field of another message. *)
Lemma ripemd_length_wrong m : 2 ^ 32 <= blen m -> blen m < 2 ^ 61 -> le_fixed 8 (8 * (blen m mod 2 ^ 32)) <> le_fixed 8 (8 * blen m).
Proof.
  intros L U E. unfold le_fixed in E. apply (f_equal (@rev N)) in E. rewrite !rev_involutive in E. apply (f_equal be_to_N) in E.
  rewrite !be_to_N_be_fixed in E. change (256 ^ N.of_nat 8) with (2 ^ 64) in E. change (2 ^ 64) with 18446744073709551616 in E.
  change (2 ^ 32) with 4294967296 in *. change (2 ^ 61) with 2305843009213693952 in U.
  generalize dependent (blen m). clear m. intros n L U E. lia.
Qed.
Lemma concat_length n l : Forall (fun x : bytes => length x = n) l -> length (concat l) = (n * length l)%nat.
Proof. induction 1 as [|x l E _ IH]; cbn [concat length]; [lia|]. rewrite app_length, E, IH. lia. Qed.
Lemma le_fixed_len n x : length (le_fixed n x) = n.
Proof. unfold le_fixed. rewrite rev_length. apply be_fixed_length. Qed.
Lemma blake_fails input : blake2_F input = None <-> length input <> 213%nat \/ 2 <= nth 212 input 0.
Proof.
  unfold blake2_F. destruct (Nat.eqb_spec (length input) 213) as [L|L]; [|tauto].
  destruct (N.ltb_spec (nth 212 input 0) 2) as [F1|F1].
  - split; [discriminate|]. intros [A|A]; [contradiction|]. exfalso. revert F1 A. generalize (nth 212 input 0). intros; lia.
  - split; [intros _; right; exact F1|reflexivity].
Qed.
Lemma blake_length input out : blake2_F input = Some out -> length out = 64%nat.
Proof.
  unfold blake2_F. destruct (Nat.eqb (length input) 213); [|discriminate]. destruct (nth 212 input 0 <? 2); [|discriminate].
  intros E. assert (E2 : forall l, length l = 8%nat -> length (concat (map (le_fixed 8) l)) = 64%nat).
  { intros l L. rewrite (concat_length 8); [rewrite map_length, L; reflexivity|]. apply Forall_forall. intros x I. apply in_map_iff in I.
    destruct I as (y & <- & _). apply le_fixed_len. }
  assert (E3 : forall l : list N, length l = 8%nat -> Some (concat (map (le_fixed 8) l)) = Some out -> length out = 64%nat).
  { intros l L Eq. injection Eq as <-. apply E2, L. }
  revert E. apply E3. unfold F. rewrite map_length, seq_length. reflexivity.
Qed.
