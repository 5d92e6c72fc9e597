(** C70: the hash functions. *)
From Verif Require Import Base KeccakSpec KeccakModel KeccakCases TypesModel ChainModel TrieModel.

(** For every input the code, which unrolls the rounds and absorbs word by word, runs without undefined behaviour and
    returns the digest that FIPS 202 defines bit by bit, with the padding of the Keccak submission. *)
Theorem C70_keccak256 : forall input, wf_bytes input -> keccak256 input = Some (keccak_digest 256 input).
Proof. exact keccak256_ok. Qed.
Print Assumptions C70_keccak256.
Theorem C70_keccak512 : forall input, wf_bytes input -> keccak512 input = Some (keccak_digest 512 input).
Proof. exact keccak512_ok. Qed.
Print Assumptions C70_keccak512.
Theorem C70_digest : forall d m, length (keccak_digest d m) = (d / 8)%nat /\ wf_bytes (keccak_digest d m).
Proof. exact (fun d m => conj (digest_length d m) (digest_wf d m)). Qed.
Print Assumptions C70_digest.
Example C70_long_input : wf_bytes long_input /\ length long_input = 147%nat.
Proof. exact (conj long_input_wf eq_refl). Qed.

(** The constants that the code compares hashes with are the hashes they are said to be: of nothing, of the RLP of the
    empty list and of the RLP of the empty string. *)
Theorem C70_constants : keccak_digest 256 [] = kEmptyHash /\ keccak_digest 256 [0xc0] = kEmptyListHash /\ keccak_digest 256 [0x80] = kEmptyRoot.
Proof. exact (conj empty_hash (conj empty_list_hash empty_root)). Qed.
Print Assumptions C70_constants.
