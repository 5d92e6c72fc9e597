(** Model of core/silkworm/execution/precompiled.cpp: the gas of the precompiled contracts, identity and modular
    exponentiation. The other [run] functions are calls to cryptographic libraries and are not modelled. *)
From Verif Require Import Base ChainModel UtilModel.

(** uint64_t arithmetic *)
Definition w64 (n : N) : N := n mod 2 ^ 64.
Definition kUint64Max : N := 2 ^ 64 - 1.

(** precompiled.cpp:44 *)
Definition ecrec_gas : N := 3000.
(** precompiled.cpp:80, 88, 96 *)
Definition sha256_gas (input : bytes) : N := w64 (60 + 12 * ((blen input + 31) mod 2 ^ 64 / 32)).
Definition rip160_gas (input : bytes) : N := w64 (600 + 120 * ((blen input + 31) mod 2 ^ 64 / 32)).
Definition id_gas (input : bytes) : N := w64 (15 + 3 * ((blen input + 31) mod 2 ^ 64 / 32)).
(** precompiled.cpp:98 *)
Definition id_run (input : bytes) : option bytes := Some input.

(** precompiled.cpp:100-110; intx::uint256 arithmetic *)
Definition w256 (n : N) : N := n mod 2 ^ 256.
Definition mult_complexity_eip198 (x : N) : N :=
  let x_squared := w256 (x * x) in
  if x <=? 64 then x_squared
  else if x <=? 1024 then sub256 (add256 (x_squared / 4) (w256 (96 * x))) 3072
  else sub256 (add256 (x_squared / 16) (w256 (480 * x))) 199680.
(** precompiled.cpp:112-115 *)
Definition mult_complexity_eip2565 (max_length : N) : N :=
  let words := w256 (max_length + 7) / 8 in w256 (words * words).

(** precompiled.cpp:116-176. None: undefined behaviour of the padding functions. [copied]: the first padding put
    the view into the buffer. *)
Definition exp_head (rest : bytes) (copied : bool) (buffer : bytes) (base_len exp_len : N) : option N :=
  if base_len <? blen rest then
    let src := if copied then Inside (96 + N.to_nat base_len) (length rest - N.to_nat base_len) else Outside (skipn (N.to_nat base_len) rest) in
    match right_pad src 32 buffer with
    | None => None
    | Some (e, buffer') =>
      let in_buffer := orb copied (length (skipn (N.to_nat base_len) rest) <? 32)%nat in
      if exp_len <? 32 then
        match left_pad (if in_buffer then Inside 0 (N.to_nat exp_len) else Outside (firstn (N.to_nat exp_len) e)) 32 buffer' with
        | None => None
        | Some (e', _) => Some (be_to_N (firstn 32 e'))
        end
      else Some (be_to_N (firstn 32 e))
    end
  else Some 0.
Definition expmod_gas (input : bytes) (rev : N) : option N :=
  let min_gas := if rev <? EVMC_BERLIN then 0 else 200 in
  match right_pad (Outside input) 96 [] with
  | None => None
  | Some (v, buffer) =>
    let base_len := be_to_N (firstn 32 v) in
    let exp_len := be_to_N (firstn 32 (skipn 32 v)) in
    let mod_len := be_to_N (firstn 32 (skipn 64 v)) in
    if (base_len =? 0) && (mod_len =? 0) then Some min_gas
    else if (2 ^ 64 <=? base_len) || (2 ^ 64 <=? exp_len) || (2 ^ 64 <=? mod_len) then Some kUint64Max
    else
      match exp_head (skipn 96 v) (length input <? 96)%nat buffer base_len exp_len with
      | None => None
      | Some head =>
        let bit_len := 256 - clz 256 head in
        let adjusted := if 32 <? exp_len then w256 (8 * (exp_len - 32)) else 0 in
        let adjusted := if 1 <? bit_len then add256 adjusted (bit_len - 1) else adjusted in
        let adjusted := if adjusted <? 1 then 1 else adjusted in
        let max_length := N.max mod_len base_len in
        let gas := if rev <? EVMC_BERLIN then w256 (mult_complexity_eip198 max_length * adjusted) / 20
                   else w256 (mult_complexity_eip2565 max_length * adjusted) / 3 in
        if 2 ^ 64 <=? gas then Some kUint64Max else Some (N.max min_gas gas)
      end
  end.

(** precompiled.cpp:178-243. mpz_* is exact arithmetic; None: undefined behaviour (reading past the view). *)
Definition expmod_run (input : bytes) : option bytes :=
  match right_pad (Outside input) 96 [] with
  | None => None
  | Some (v, buffer) =>
    let base_len := be_to_N (firstn 8 (skipn 24 v)) in
    let exponent_len := be_to_N (firstn 8 (skipn 56 v)) in
    let modulus_len := be_to_N (firstn 8 (skipn 88 v)) in
    if modulus_len =? 0 then Some []
    else
      let rest := skipn 96 v in
      let size := w64 (base_len + exponent_len + modulus_len) in
      match right_pad (if (length input <? 96)%nat then Inside 96 (length rest) else Outside rest) (N.to_nat size) buffer with
      | None => None
      | Some (v, _) =>
        if blen v <? base_len + exponent_len + modulus_len then None
        else
          let base := be_to_N (firstn (N.to_nat base_len) v) in
          let v := skipn (N.to_nat base_len) v in
          let exponent := be_to_N (firstn (N.to_nat exponent_len) v) in
          let v := skipn (N.to_nat exponent_len) v in
          let modulus := be_to_N (firstn (N.to_nat modulus_len) v) in
          if modulus =? 0 then Some (zeros (N.to_nat modulus_len))
          else Some (be_fixed (N.to_nat modulus_len) (base ^ exponent mod modulus))
      end
  end.

(** precompiled.cpp:245, 267 *)
Definition bn_add_gas (rev : N) : N := if EVMC_ISTANBUL <=? rev then 150 else 500.
Definition bn_mul_gas (rev : N) : N := if EVMC_ISTANBUL <=? rev then 6000 else 40000.
(** precompiled.cpp:286-291 *)
Definition snarkv_gas (input : bytes) (rev : N) : N :=
  let k := blen input / 192 in
  if EVMC_ISTANBUL <=? rev then w64 (34000 * k + 45000) else w64 (80000 * k + 100000).
(** precompiled.cpp:329-335 *)
Definition blake2_f_gas (input : bytes) : N := if blen input <? 4 then 0 else be_to_N (firstn 4 input).

(** precompiled.hpp:66-70: kContracts[num - 1].gas *)
Definition precompile_gas (num : N) (input : bytes) (rev : N) : option N :=
  match num with
  | 1 => Some ecrec_gas
  | 2 => Some (sha256_gas input)
  | 3 => Some (rip160_gas input)
  | 4 => Some (id_gas input)
  | 5 => expmod_gas input rev
  | 6 => Some (bn_add_gas rev)
  | 7 => Some (bn_mul_gas rev)
  | 8 => Some (snarkv_gas input rev)
  | 9 => Some (blake2_f_gas input)
  | _ => None
  end.
