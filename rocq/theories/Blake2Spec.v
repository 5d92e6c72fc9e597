(** The compression function F of BLAKE2b, RFC 7693 sections 2.6, 2.7, 3.1 and 3.2, and the precompiled contract of EIP-152. *)
From Verif Require Import Base Sha256Spec RipemdSpec.

Definition plus64 (a b : N) : N := (a + b) mod 2 ^ 64.
(** 2.3: rotation to the right. *)
Definition rotr (n x : N) : N := x / 2 ^ n + x mod 2 ^ n * 2 ^ (64 - n).
(** 2.6: the initialisation vector: 64 bits of the square roots of the first eight primes. *)
Definition IV (i : nat) : N := root_bits 2 (nth i primes 0) 64.
(** 2.7: the schedule. *)
Definition SIGMA : list (list nat) :=
  [[0; 1; 2; 3; 4; 5; 6; 7; 8; 9; 10; 11; 12; 13; 14; 15];
   [14; 10; 4; 8; 9; 15; 13; 6; 1; 12; 0; 2; 11; 7; 5; 3];
   [11; 8; 12; 0; 5; 2; 15; 13; 10; 14; 3; 6; 7; 1; 9; 4];
   [7; 9; 3; 1; 13; 12; 11; 14; 2; 6; 5; 10; 4; 0; 15; 8];
   [9; 0; 5; 7; 2; 4; 10; 15; 14; 1; 11; 12; 6; 8; 3; 13];
   [2; 12; 6; 10; 0; 11; 8; 3; 4; 13; 7; 5; 15; 14; 1; 9];
   [12; 5; 1; 15; 14; 13; 4; 10; 0; 7; 6; 3; 9; 2; 8; 11];
   [13; 11; 7; 14; 12; 1; 3; 9; 5; 0; 15; 4; 8; 6; 2; 10];
   [6; 15; 14; 9; 11; 3; 0; 8; 12; 2; 13; 7; 1; 4; 10; 5];
   [10; 2; 8; 4; 7; 6; 1; 5; 15; 11; 9; 14; 3; 12; 13; 0]]%nat.

(** 3.1: the mixing function, on four words: R1 = 32, R2 = 24, R3 = 16, R4 = 63. *)
Definition mix (a b c d x y : N) : N * N * N * N :=
  let a := plus64 (plus64 a b) x in
  let d := rotr 32 (N.lxor d a) in
  let c := plus64 c d in
  let b := rotr 24 (N.lxor b c) in
  let a := plus64 (plus64 a b) y in
  let d := rotr 16 (N.lxor d a) in
  let c := plus64 c d in
  let b := rotr 63 (N.lxor b c) in
  (a, b, c, d).

(** The working vector as a function of the index, so that mixing touches exactly the four named words. *)
Definition vec := nat -> N.
Definition mixed (v : vec) (a b c d : nat) (x y : N) : vec :=
  let '(a', b', c', d') := mix (v a) (v b) (v c) (v d) x y in
  fun i => if Nat.eqb i a then a' else if Nat.eqb i b then b' else if Nat.eqb i c then c' else if Nat.eqb i d then d' else v i.
(** 3.2: a round mixes the four columns and then the four diagonals. *)
Definition column (s : nat -> N) (v : vec) (i : nat) : vec := mixed v i (4 + i) (8 + i) (12 + i) (s (2 * i)%nat) (s (2 * i + 1)%nat).
Definition diagonal (s : nat -> N) (v : vec) (i : nat) : vec :=
  mixed v i (4 + (i + 1) mod 4) (8 + (i + 2) mod 4) (12 + (i + 3) mod 4) (s (8 + 2 * i)%nat) (s (8 + 2 * i + 1)%nat).
Definition blake_round (m : list N) (v : vec) (i : nat) : vec :=
  let s := fun j => nth (nth j (nth (i mod 10) SIGMA []) 0%nat) m 0 in
  fold_left (diagonal s) (seq 0 4) (fold_left (column s) (seq 0 4) v).

(** 3.2: [h] eight words, [m] sixteen words, [t] a 128-bit counter, [final] the final-block flag. *)
Definition initial_vec (h : list N) (t : N) (final : bool) : vec :=
  fun i =>
    if (i <? 8)%nat then nth i h 0
    else if Nat.eqb i 12 then N.lxor (IV 4) (t mod 2 ^ 64)
    else if Nat.eqb i 13 then N.lxor (IV 5) (t / 2 ^ 64)
    else if Nat.eqb i 14 then (if final then 2 ^ 64 - 1 - IV 6 else IV 6)
    else IV (i - 8).
Definition F (rounds : nat) (h m : list N) (t : N) (final : bool) : list N :=
  let v := fold_left (blake_round m) (seq 0 rounds) (initial_vec h t final) in
  map (fun i => N.lxor (N.lxor (nth i h 0) (v i)) (v (8 + i)%nat)) (seq 0 8).

(** EIP-152: [4 bytes for rounds][64 bytes for h][128 bytes for m][8 bytes for t_0][8 bytes for t_1][1 byte for f]; rounds is
    big-endian, the words are little-endian, any other length or flag is an error. *)
Definition le_word64 (b : bytes) (i : nat) : N := be_to_N (rev (firstn 8 (skipn (8 * i) b))).
Definition le_words64 (count : nat) (b : bytes) : list N := map (le_word64 b) (seq 0 count).
Definition blake2_F (input : bytes) : option bytes :=
  if Nat.eqb (length input) 213 then
    let flag := nth 212 input 0 in
    if flag <? 2 then
      Some (concat (map (le_fixed 8)
        (F (N.to_nat (be_to_N (firstn 4 input))) (le_words64 8 (skipn 4 input)) (le_words64 16 (skipn 68 input))
           (be_to_N (rev (firstn 16 (skipn 196 input)))) (N.eqb flag 1))))
    else None
  else None.
