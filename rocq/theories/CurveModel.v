(** Model of crypto/snark.cpp, crypto/ecdsa.cpp (recover) and of the contracts of execution/precompiled.cpp that use them.
    libsecp256k1 and libff are external libraries: records of functions, about which CurveProofs assumes what their
    documentation promises. *)
From Verif Require Import Base EcdsaModel KeccakModel UtilModel.

(** ** libsecp256k1 *)
Record secp_lib := mkSecp {
  secp_sig : Type;
  secp_key : Type;
  secp_parse : bytes -> bool -> option secp_sig;         (* secp256k1_ecdsa_recoverable_signature_parse_compact *)
  secp_recover : secp_sig -> bytes -> option secp_key;   (* secp256k1_ecdsa_recover *)
  secp_serialize : secp_key -> bytes                      (* secp256k1_ec_pubkey_serialize, uncompressed *)
}.
(** crypto/ecdsa.cpp:65-86 *)
Definition recover (L : secp_lib) (message signature : bytes) (odd_y_parity : bool) : option bytes :=
  if negb (blen message =? 32) || negb (blen signature =? 64) then None
  else
    match secp_parse L signature odd_y_parity with
    | None => None
    | Some sig => match secp_recover L sig message with None => None | Some key => Some (secp_serialize L key) end
    end.
(** execution/precompiled.cpp:46-78. The outer option is undefined behaviour: key->at(0) on an empty key, or in Keccak. *)
Definition ecrec_run (L : secp_lib) (input : bytes) : option (option bytes) :=
  let d := if blen input <? 128 then input ++ zeros (128 - length input) else input in
  let v := be_to_N (firstn 32 (skipn 32 d)) in
  let r := be_to_N (firstn 32 (skipn 64 d)) in
  let s := be_to_N (firstn 32 (skipn 96 d)) in
  if negb (is_valid_signature r s false) then Some (Some [])
  else
    let '(odd, chain_id) := v_to_y_parity_and_chain_id v in
    match chain_id with
    | Some _ => Some (Some [])
    | None =>
      match recover L (firstn 32 d) (firstn 64 (skipn 64 d)) odd with
      | None => Some (Some [])
      | Some [] => None
      | Some (k0 :: k) =>
        if negb (k0 =? 4) then Some (Some [])
        else match keccak256 k with None => None | Some hash => Some (Some (zeros 12 ++ firstn 20 (skipn 12 hash))) end
      end
    end.

(** ** libff *)
Record libff := mkLibff {
  ff_q : N;                                   (* alt_bn128_modulus_q *)
  ff_r : N;                                   (* alt_bn128_G2::order() *)
  ff_G1 : Type;                               (* alt_bn128_G1 *)
  ff_G1_zero : ff_G1;
  ff_G1_make : N -> N -> ff_G1;               (* G1{x, y, Fq::one()} *)
  ff_G1_is_zero : ff_G1 -> bool;
  ff_G1_is_well_formed : ff_G1 -> bool;
  ff_G1_add : ff_G1 -> ff_G1 -> ff_G1;
  ff_G1_mul : N -> ff_G1 -> ff_G1;
  ff_G1_to_affine : ff_G1 -> N * N;           (* to_affine_coordinates, then X, Y as_bigint *)
  ff_G2 : Type;                               (* alt_bn128_G2 *)
  ff_G2_zero : ff_G2;
  ff_G2_make : N * N -> N * N -> ff_G2;       (* an element of Fq2: c0, c1 *)
  ff_G2_is_zero : ff_G2 -> bool;
  ff_G2_is_well_formed : ff_G2 -> bool;
  ff_G2_mul : N -> ff_G2 -> ff_G2;
  ff_GT : Type;                               (* alt_bn128_Fq12 *)
  ff_one : ff_GT;
  ff_mul : ff_GT -> ff_GT -> ff_GT;
  ff_eqb : ff_GT -> ff_GT -> bool;
  ff_miller_loop : ff_G1 -> ff_G2 -> ff_GT;   (* miller_loop of precompute_G1 and precompute_G2 *)
  ff_final_exponentiation : ff_GT -> ff_GT
}.

Section Snark.
  Variable L : libff.
  (** crypto/snark.cpp:40-47; mpz_import is exact, and a bigint of four limbs holds 32 bytes *)
  Definition to_scalar (be : bytes) : N := be_to_N be.
  (** :49-53 *)
  Definition valid_element_of_fp (x : N) : bool := x <? ff_q L.
  (** :55-77; substr clips *)
  Definition decode_g1_element (b : bytes) : option (ff_G1 L) :=
    let x := to_scalar (firstn 32 b) in
    if negb (valid_element_of_fp x) then None
    else
      let y := to_scalar (firstn 32 (skipn 32 b)) in
      if negb (valid_element_of_fp y) then None
      else if (x =? 0) && (y =? 0) then Some (ff_G1_zero L)
      else
        let point := ff_G1_make L x y in
        if negb (ff_G1_is_well_formed L point) then None else Some point.
  (** :79-91 *)
  Definition decode_fp2_element (b : bytes) : option (N * N) :=
    let c0 := to_scalar (firstn 32 (skipn 32 b)) in
    let c1 := to_scalar (firstn 32 b) in
    if negb (valid_element_of_fp c0) || negb (valid_element_of_fp c1) then None else Some (c0, c1).
  (** :93-121 *)
  Definition decode_g2_element (b : bytes) : option (ff_G2 L) :=
    match decode_fp2_element (firstn 64 b) with
    | None => None
    | Some x =>
      match decode_fp2_element (firstn 64 (skipn 64 b)) with
      | None => None
      | Some y =>
        if (fst x =? 0) && (snd x =? 0) && ((fst y =? 0) && (snd y =? 0)) then Some (ff_G2_zero L)
        else
          let point := ff_G2_make L x y in
          if negb (ff_G2_is_well_formed L point) then None
          else if negb (ff_G2_is_zero L (ff_G2_mul L (ff_r L) point)) then None
          else Some point
      end
    end.
  (** :123-143; the limbs are little-endian *)
  Definition limbs (n : N) : bytes := rev (be_fixed 32 n).
  Definition encode_g1_element (p : ff_G1 L) : bytes :=
    if ff_G1_is_zero L p then zeros 64
    else let '(x, y) := ff_G1_to_affine L p in rev (limbs y ++ limbs x).

  (** execution/precompiled.cpp:247-265. The outer option: undefined behaviour of right_pad. *)
  Definition bn_add_run (input : bytes) : option (option bytes) :=
    match right_pad (Outside input) 128 [] with
    | None => None
    | Some (input, _) => Some
      match decode_g1_element (firstn 64 input) with
      | None => None
      | Some x =>
        match decode_g1_element (firstn 64 (skipn 64 input)) with
        | None => None
        | Some y => Some (encode_g1_element (ff_G1_add L x y))
        end
      end
    end.
  (** :269-284 *)
  Definition bn_mul_run (input : bytes) : option (option bytes) :=
    match right_pad (Outside input) 96 [] with
    | None => None
    | Some (input, _) => Some
      match decode_g1_element (firstn 64 input) with
      | None => None
      | Some x => Some (encode_g1_element (ff_G1_mul L (to_scalar (firstn 32 (skipn 64 input))) x))
      end
    end.
  (** :293-327 *)
  Definition kSnarkvStride : nat := 192.
  Fixpoint snarkv_loop (input : bytes) (k i : nat) (accumulator : ff_GT L) : option (ff_GT L) :=
    match k with
    | O => Some accumulator
    | S k =>
      match decode_g1_element (firstn 64 (skipn (i * kSnarkvStride) input)) with
      | None => None
      | Some a =>
        match decode_g2_element (firstn 128 (skipn (i * kSnarkvStride + 64) input)) with
        | None => None
        | Some b =>
          snarkv_loop input k (S i)
            (if ff_G1_is_zero L a || ff_G2_is_zero L b then accumulator else ff_mul L accumulator (ff_miller_loop L a b))
        end
      end
    end.
  Definition snarkv_run (input : bytes) : option bytes :=
    if negb (length input mod kSnarkvStride =? 0)%nat then None
    else
      match snarkv_loop input (length input / kSnarkvStride) 0 (ff_one L) with
      | None => None
      | Some accumulator => Some (zeros 31 ++ [if ff_eqb L (ff_final_exponentiation L accumulator) (ff_one L) then 1 else 0])
      end.
End Snark.
