(** Model of core/silkworm/crypto/ecdsa.{hpp,cpp} (the arithmetic part; secp256k1 itself is external). *)
From Verif Require Import Base.

(** crypto/ecdsa.hpp:30-33 *)
Definition kSecp256k1n : N :=
  0xfffffffffffffffffffffffffffffffebaaedce6af48a03bbfd25e8cd0364141.
Definition kSecp256k1Halfn : N := kSecp256k1n / 2.

(** crypto/ecdsa.cpp:25-31; uint256 arithmetic wraps. *)
Definition y_parity_and_chain_id_to_v (odd : bool) (chain_id : option N) : N :=
  match chain_id with
  | Some c => (c * 2 + 35 + (if odd then 1 else 0)) mod 2 ^ 256
  | None => if odd then 28 else 27
  end.

(** crypto/ecdsa.cpp:33-49; [v - 35] wraps modulo 2^256. *)
Definition v_to_y_parity_and_chain_id (v : N) : bool * option N :=
  if (v =? 27) || (v =? 28) then (v =? 28, None)
  else
    let w := (v + 2 ^ 256 - 35) mod 2 ^ 256 in
    (negb ((w mod 2 ^ 64) mod 2 =? 0), Some (w / 2)).

(** crypto/ecdsa.cpp:51-63 *)
Definition is_valid_signature (r s : N) (homestead : bool) : bool :=
  if (r =? 0) || (s =? 0) then false
  else if (kSecp256k1n <=? r) && (kSecp256k1n <=? s) then false
  else if homestead && (kSecp256k1Halfn <? s) then false
  else true.
