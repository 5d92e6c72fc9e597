(** C77 ecrecover, C78 the contracts on alt_bn128, C79 the sender of a transaction; C35 the table of contracts.
    Assumed of the libraries: CurveLibs. *)
From Verif Require Import Base TxModel TxSpec KeccakSpec PrecompileSpec Sha256Spec RipemdSpec Blake2Spec FarmModel CurveSpec CurveModel CurveLibs CurveProofs CurveLemmas.

(** C77: for every input the contract returns the address of the key that the signature determines, or nothing. *)
Theorem C77_ecrecover L input : secp_ok L -> wf_bytes input -> ecrec_run L input = Some (Some (ecrecover input)).
Proof. exact (ecrec_ok L input). Qed.
Print Assumptions C77_ecrecover.
(** C77: the signature must be in range, both r and s (the check in the code lets one of them out of range through). *)
Theorem C77_range z r s odd : r = 0 \/ secp_n <= r \/ s = 0 \/ secp_n <= s -> ecdsa_recover z r s odd = None.
Proof. exact (recover_none z r s odd). Qed.
Print Assumptions C77_range.
(** The key with private key 1 is the base point: the signature r = s = x of the message 0 is one of it. Computing shows
      ecrec_run plain_secp C77_input = Some (Some (zeros 12 ++ be_fixed 20 0x7e5f4552091a69125d5dfcb7b8c2659029395bdf))
    but takes half a minute (vm_compute), so it is not part of the build. *)
Definition C77_x : N := 0x79be667ef9dcbbac55a06295ce870b07029bfcdb2dce28d959f2815b16f81798.
Definition C77_input : bytes := zeros 32 ++ be_fixed 32 27 ++ be_fixed 32 C77_x ++ be_fixed 32 C77_x.
Example C77_case : secp_ok plain_secp /\ wf_bytes C77_input /\
  ecrec_run plain_secp (zeros 32 ++ be_fixed 32 29 ++ be_fixed 32 C77_x ++ be_fixed 32 C77_x) = Some (Some []) /\
  ecrec_run plain_secp (zeros 32 ++ be_fixed 32 27 ++ be_fixed 32 C77_x ++ be_fixed 32 secp_n) = Some (Some []).
Proof. split; [exact plain_secp_ok|]. split; [repeat constructor|]. split; vm_compute; reflexivity. Qed.
(** The base point is on the curve. *)
Example C77_base : match secp_G with Some (x, y) => y * y mod secp_p = (x * x * x + 7) mod secp_p | None => False end.
Proof. vm_compute. reflexivity. Qed.

(** C78: addition and multiplication of points (EIP-196); None is failure of the contract. *)
Theorem C78_add L pt1 pt2 e input : libff_ok L pt1 pt2 e -> bn_add_run L input = Some (bn_add input).
Proof. exact (fun H => bn_add_ok L pt1 pt2 e H input). Qed.
Print Assumptions C78_add.
Theorem C78_mul L pt1 pt2 e input : libff_ok L pt1 pt2 e -> wf_bytes input -> bn_mul_run L input = Some (bn_mul input).
Proof. exact (fun H => bn_mul_ok L pt1 pt2 e H input). Qed.
Print Assumptions C78_mul.
(** C78: the pairing check (EIP-197), for any number of pairs. *)
Theorem C78_pairing L pt1 pt2 e input : libff_ok L pt1 pt2 e ->
  snarkv_run L input = bn_pairing e (ff_mul L) (ff_one L) (ff_eqb L) input.
Proof. exact (fun H => snarkv_ok L pt1 pt2 e H input). Qed.
Print Assumptions C78_pairing.
(** C78: what is put out for a point is accepted as that point. *)
Theorem C78_encoding P : valid_g1 P -> g1_of (of_g1 P) = Some P.
Proof. exact (g1_roundtrip P). Qed.
Print Assumptions C78_encoding.
Definition C78_base : bytes := be_fixed 32 1 ++ be_fixed 32 2.
(** Computing also shows the double of the base point, in some seconds:
      bn_add_run plain_libff (C78_base ++ C78_base) = Some (Some (be_fixed 32 0x030644e72e131a029b85045b68181585d97816a916871ca8d3c208c16d87cfd3
        ++ be_fixed 32 0x15ed738c0e0a7c92e7845f96b2ae9c0a68a6a449e3538fc7ff3ebf7a5a18a2c4)) *)
Example C78_case : libff_ok plain_libff (fun P => P) (fun P => P) formal_pairing /\
  bn_add_run plain_libff (C78_base ++ be_fixed 32 1 ++ be_fixed 32 (bn_p - 2)) = Some (Some (zeros 64)) /\
  bn_add_run plain_libff C78_base = Some (Some C78_base) /\
  bn_add_run plain_libff (be_fixed 32 1 ++ be_fixed 32 3) = Some None /\
  bn_add_run plain_libff (be_fixed 32 (1 + bn_p) ++ be_fixed 32 2) = Some None /\
  bn_mul_run plain_libff (C78_base ++ zeros 31 ++ [1]) = Some (Some C78_base) /\
  snarkv_run plain_libff [] = Some (be_fixed 32 1) /\
  snarkv_run plain_libff (C78_base ++ zeros 128) = Some (be_fixed 32 1) /\
  snarkv_run plain_libff (C78_base ++ zeros 127) = None.
Proof. split; [exact plain_libff_ok|]. do 7 (split; [vm_compute; reflexivity|]). vm_compute; reflexivity. Qed.
(** The generator of EIP-197 satisfies the equation of the twisted curve. *)
Example C78_twist : on_twist
  (10857046999023057135944570762232829481370756359578518086990519993285655852781, 11559732032986387107991004021392285783925812861821192530917403151452391805634)
  (8495653923123431417604973247489272438418190587263600148770280649306958101930, 4082367875863433681332203403145435568316851327593401208105741076214120093531) = true.
Proof. vm_compute. reflexivity. Qed.

(** C79: the sender of a transaction is the address of the key that signed the payload of its type (EIP-155, 2930, 1559). *)
Theorem C79_sender L t : secp_ok L -> wf_tx t -> small_signing t ->
  recover_sender (keccak_digest 256) (recover L) t
  = option_map key_address (ecdsa_recover (be_to_N (keccak_digest 256 (envelope t (spec_signing_item t)))) (tx_r t) (tx_s t) (tx_odd_y_parity t)).
Proof. exact (sender_ok L t). Qed.
Print Assumptions C79_sender.
Example C79_case : let t := mkTx kEip1559 5 1 2 21000 (Some (be_fixed 20 7)) 3 [1; 2] true (Some 1) 9 9 [] None in
  secp_ok plain_secp /\ wf_tx t /\ small_signing t.
Proof. split; [exact plain_secp_ok|]. split; [repeat split; repeat constructor|reflexivity]. Qed.

(** C35: each number runs the function of its standard. Assumed: inputs of the third below 2^32 bytes (see C75); lengths
    in the input of the fifth that a machine can hold. *)
Theorem C35_results S L pt1 pt2 e num input : secp_ok S -> libff_ok L pt1 pt2 e -> wf_bytes input -> 1 <= num <= 9 ->
  (num = 3 -> blen input < 2 ^ 32) ->
  (num = 5 -> be_to_N (field input 64 32) = 0 \/ be_to_N (field input 0 32) + be_to_N (field input 32 32) + be_to_N (field input 64 32) < 2 ^ 64) ->
  precompile_run S L num input = Some (nth (N.to_nat num)
    [ None; Some (ecrecover input); Some (sha256 input); Some (zeros 12 ++ ripemd160 input); Some input; Some (modexp input);
      bn_add input; bn_mul input; bn_pairing e (ff_mul L) (ff_one L) (ff_eqb L) input; blake2_F input ] None).
Proof. exact (table_ok S L pt1 pt2 e num input). Qed.
Print Assumptions C35_results.
Example C35_case : wf_bytes (be_fixed 32 1 ++ be_fixed 32 1 ++ be_fixed 32 1 ++ [3; 2; 5]) /\
  be_to_N (field (be_fixed 32 1 ++ be_fixed 32 1 ++ be_fixed 32 1 ++ [3; 2; 5]) 64 32) = 1 /\ modexp (be_fixed 32 1 ++ be_fixed 32 1 ++ be_fixed 32 1 ++ [3; 2; 5]) = [4].
Proof. split; [repeat constructor|]. split; vm_compute; reflexivity. Qed.
