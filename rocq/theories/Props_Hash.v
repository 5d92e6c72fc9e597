(** C74 SHA-256, C75 RIPEMD-160, C76 BLAKE2: the hash functions among the precompiled contracts. *)
From Verif Require Import Base Sha256Spec Sha256Model Sha256Proofs RipemdModel RipemdSpec RipemdProofs2 Blake2Model Blake2Spec Blake2Proofs HashLemmas.

(** C74: for an input of any length the contract returns the digest of FIPS 180-4, provided the array of sha-256.c:178 keeps
    its contents from one turn of the loop to the next ([true]), which compilers do and the C standard does not promise. *)
Theorem C74_sha256_partial m : wf_bytes m -> sha256_run true m = Some (Some (sha256 m)).
Proof. exact (sha256_run_ok m). Qed.
Print Assumptions C74_sha256_partial.
(** C74 is false by the letter of the C standard: without that promise every input makes the code read an indeterminate word. *)
Theorem C74_indeterminate_refuted m : sha256_run false m = None.
Proof. exact (sha256_run_indeterminate m). Qed.
Print Assumptions C74_indeterminate_refuted.
(** C74, C76: the tables in the code are the bits of roots of primes that the standards name; [is_root] determines them. *)
Theorem C74_constants :
  (forall t, (t < 64)%nat -> is_root 3 (nth t primes 0) 32 (nth t k 0)) /\
  (forall i, (i < 8)%nat -> is_root 2 (nth i primes 0) 32 (nth i initial_h 0)) /\
  (forall i, (i < 8)%nat -> is_root 2 (nth i primes 0) 64 (nth i blake2b_IV 0)).
Proof. exact constants. Qed.
Print Assumptions C74_constants.
Theorem C74_roots_unique k p bits c d : k <> 0 -> is_root k p bits c -> is_root k p bits d -> c = d.
Proof. exact (is_root_unique k p bits c d). Qed.
Print Assumptions C74_roots_unique.
Theorem C74_primes p : In p primes <-> 2 <= p /\ p <= 311 /\ (forall d, 2 <= d -> d < p -> p mod d <> 0).
Proof. exact (primes_ok p). Qed.
Print Assumptions C74_primes.
Example C74_case : wf_bytes [97; 98; 99] /\
  sha256 [97; 98; 99] = be_fixed 32 0xba7816bf8f01cfea414140de5dae2223b00361a396177a9cb410ff61f20015ad /\
  sha256_run true [97; 98; 99] = Some (Some (be_fixed 32 0xba7816bf8f01cfea414140de5dae2223b00361a396177a9cb410ff61f20015ad)).
Proof. split; [repeat constructor|]. split; vm_compute; reflexivity. Qed.

(** C75: for an input of less than 2^32 bytes the contract returns twelve zero bytes and the RIPEMD-160 digest. *)
Theorem C75_ripemd_partial m : wf_bytes m -> blen m < 2 ^ 32 -> rip160_run m = Some (Some (zeros 12 ++ ripemd160 m)).
Proof. exact (rip160_run_ok m). Qed.
Print Assumptions C75_ripemd_partial.
(** C75: for an input of any length it returns the digest in which the length is taken modulo 2^32. *)
Theorem C75_any_length_partial m : wf_bytes m ->
  rip160_run m = Some (Some (zeros 12 ++
    let b := m ++ [128] ++ zeros (pad_zeros (length m)) ++ le_fixed 8 (8 * (blen m mod 2 ^ 32)) in
    let h := rmd_blocks (length b / 64) rmd_initial b in concat (map (le_fixed 4) [cA h; cB h; cC h; cD h; cE h]))).
Proof. exact (rip160_run_any m). Qed.
Print Assumptions C75_any_length_partial.
(** C75 is false beyond: the length that is hashed is not the length of the message. *)
Theorem C75_length_refuted m : 2 ^ 32 <= blen m -> blen m < 2 ^ 61 -> le_fixed 8 (8 * (blen m mod 2 ^ 32)) <> le_fixed 8 (8 * blen m).
Proof. exact (ripemd_length_wrong m). Qed.
Print Assumptions C75_length_refuted.
Example C75_case : wf_bytes [97; 98; 99] /\ blen [97; 98; 99] < 2 ^ 32 /\
  rip160_run [97; 98; 99] = Some (Some (zeros 12 ++ be_fixed 20 0x8eb208f7e05d987a9b044a8e98c6b087f15a0bfc)) /\
  ripemd160 [97; 98; 99] = be_fixed 20 0x8eb208f7e05d987a9b044a8e98c6b087f15a0bfc.
Proof. split; [repeat constructor|]. split; [reflexivity|]. split; vm_compute; reflexivity. Qed.

(** C76: for every input the contract does what EIP-152 prescribes: the compression function of RFC 7693, or failure. *)
Theorem C76_blake2 input : wf_bytes input -> blake2_f_run input = Some (blake2_F input).
Proof. exact (blake2_ok input). Qed.
Print Assumptions C76_blake2.
Theorem C76_failure input : blake2_F input = None <-> length input <> 213%nat \/ 2 <= nth 212 input 0.
Proof. exact (blake_fails input). Qed.
Print Assumptions C76_failure.
Theorem C76_length input out : blake2_F input = Some out -> length out = 64%nat.
Proof. exact (blake_length input out). Qed.
Print Assumptions C76_length.
(** The fifth test vector of EIP-152. *)
Definition C76_input : bytes := be_fixed 4 12 ++
  be_fixed 64 0x48c9bdf267e6096a3ba7ca8485ae67bb2bf894fe72f36e3cf1361d5f3af54fa5d182e6ad7f520e511f6c3e2b8c68059b6bbd41fbabd9831f79217e1319cde05b ++
  [97; 98; 99] ++ zeros 125 ++ [3] ++ zeros 15 ++ [1].
Example C76_case : length C76_input = 213%nat /\ blake2_f_run C76_input = Some (Some (be_fixed 64
  0xba80a53f981c4d0d6a2797b69f12f6e94c212f14685ac4b74b12bb6fdbffa2d17d87c5392aab792dc252d5de4533cc9518d38aa8dbf1925ab92386edd4009923)).
Proof. split; vm_compute; reflexivity. Qed.
