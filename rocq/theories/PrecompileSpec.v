(** Gas of the precompiled contracts: Yellow Paper appendix E, EIP-152, 196, 197, 198, 1108, 2565. *)
From Verif Require Import Base ChainModel.

(** Input is zero-extended without end: the [n] bytes at [pos]. *)
Definition field (input : bytes) (pos n : N) : bytes :=
  firstn (N.to_nat n) (skipn (N.to_nat pos) input ++ zeros (N.to_nat n)).
Definition words (n : N) : N := (n + 31) / 32.

(** EIP-198, EIP-2565 *)
Definition complexity198 (x : N) : N :=
  if x <=? 64 then x ^ 2 else if x <=? 1024 then x ^ 2 / 4 + 96 * x - 3072 else x ^ 2 / 16 + 480 * x - 199680.
Definition complexity2565 (x : N) : N := ((x + 7) / 8) ^ 2.
Definition adjusted_exponent_length (exp_len head : N) : N :=
  8 * (exp_len - 32) + (if head =? 0 then 0 else N.log2 head).
Definition modexp_gas (rev : N) (input : bytes) : N :=
  let base_len := be_to_N (field input 0 32) in
  let exp_len := be_to_N (field input 32 32) in
  let mod_len := be_to_N (field input 64 32) in
  let head := be_to_N (field input (96 + base_len) (N.min exp_len 32)) in
  let iterations := N.max (adjusted_exponent_length exp_len head) 1 in
  let x := N.max base_len mod_len in
  if rev <? EVMC_BERLIN then complexity198 x * iterations / 20 else N.max 200 (complexity2565 x * iterations / 3).
Definition modexp (input : bytes) : bytes :=
  let bl := be_to_N (field input 0 32) in
  let el := be_to_N (field input 32 32) in
  let ml := be_to_N (field input 64 32) in
  let b := be_to_N (field input 96 bl) in
  let e := be_to_N (field input (96 + bl) el) in
  let m := be_to_N (field input (96 + bl + el) ml) in
  be_fixed (N.to_nat ml) (if m =? 0 then 0 else b ^ e mod m).

(** Number of the contract, first revision that has it, price. *)
Definition gas_table (rev : N) (input : bytes) : list (N * N * N) :=
  let n := blen input in
  [ (1, EVMC_FRONTIER, 3000);
    (2, EVMC_FRONTIER, 60 + 12 * words n);
    (3, EVMC_FRONTIER, 600 + 120 * words n);
    (4, EVMC_FRONTIER, 15 + 3 * words n);
    (5, EVMC_BYZANTIUM, modexp_gas rev input);
    (6, EVMC_BYZANTIUM, if rev <? EVMC_ISTANBUL then 500 else 150);
    (7, EVMC_BYZANTIUM, if rev <? EVMC_ISTANBUL then 40000 else 6000);
    (8, EVMC_BYZANTIUM, if rev <? EVMC_ISTANBUL then 100000 + 80000 * (n / 192) else 45000 + 34000 * (n / 192));
    (9, EVMC_ISTANBUL, if n <? 4 then 0 else be_to_N (field input 0 4)) ].
