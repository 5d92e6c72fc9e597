(** C70 in final form, and the constants that stand for hashes. *)
From Verif Require Import Base BaseFacts KeccakSpec KeccakModel KeccakProofs KeccakProofs2 KeccakProofs3 KeccakProofs4 TypesModel ChainModel TrieModel.

Lemma keccak256_ok input : wf_bytes input -> keccak256 input = Some (keccak_digest 256 input).
Proof. intros W. exact (keccak_impl_ok 4 input ltac:(lia) W). Qed.
Lemma keccak512_ok input : wf_bytes input -> keccak512 input = Some (keccak_digest 512 input).
Proof. intros W. exact (keccak_impl_ok 8 input ltac:(lia) W). Qed.

(** Digests are byte strings of the expected size. *)
Lemma digest_length d m : length (keccak_digest d m) = (d / 8)%nat.
Proof. unfold keccak_digest, squeeze. rewrite map_length, seq_length. reflexivity. Qed.
Lemma bits_below f : forall l, fold_right (fun (j : nat) acc => bit_value (f j) + 2 * acc) 0 l < 2 ^ N.of_nat (length l).
Proof.
  induction l as [|j l IH]; [reflexivity|]. cbn [fold_right length]. rewrite Nat2N.inj_succ, N.pow_succ_r'.
  assert (B : bit_value (f j) <= 1) by (unfold bit_value; destruct (f j); lia). lia.
Qed.
Lemma digest_wf d m : wf_bytes (keccak_digest d m).
Proof.
  unfold keccak_digest, squeeze. apply Forall_forall. intros b B. apply in_map_iff in B. destruct B as (k & <- & _).
  exact (bits_below (fun j => state_bit _ (8 * k + j)) (seq 0 8)).
Qed.

(** base.hpp:45-52. *)
Lemma empty_hash : keccak_digest 256 [] = kEmptyHash.
Proof.
  assert (E : keccak256 [] = Some kEmptyHash) by (vm_compute; reflexivity).
  rewrite (keccak256_ok []) in E by constructor. congruence.
Qed.
Lemma empty_list_hash : keccak_digest 256 [0xc0] = kEmptyListHash.
Proof.
  assert (E : keccak256 [0xc0] = Some kEmptyListHash) by (vm_compute; reflexivity).
  rewrite (keccak256_ok [0xc0]) in E by (repeat constructor). congruence.
Qed.
Lemma empty_root : keccak_digest 256 [0x80] = kEmptyRoot.
Proof.
  assert (E : keccak256 [0x80] = Some kEmptyRoot) by (vm_compute; reflexivity).
  rewrite (keccak256_ok [0x80]) in E by (repeat constructor). congruence.
Qed.

(** An input of two blocks of the 512-bit variant, with a rest of three bytes. *)
Definition long_input : bytes := repeat 7 147.
Lemma long_input_wf : wf_bytes long_input.
Proof. apply wf_bytesb_spec. reflexivity. Qed.
