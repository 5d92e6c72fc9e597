(** The Keccak hash functions as defined by the Keccak team and by NIST (FIPS PUB 202), with the padding
    of the Keccak submission that Ethereum uses (no domain separation suffix): Keccak[c] with capacity
    c = 2 d for a digest of d bits. Everything is defined on single bits, as in FIPS 202, section 3. *)
From Verif Require Import Base.

(** FIPS 202, 3.1: a state array; [A x y z] is the bit with coordinates (x, y, z), x and y below 5 and z
    below 64. *)
Definition array := nat -> nat -> N -> bool.

(** FIPS 202, 3.2.1. *)
Definition theta_C (A : array) (x : nat) (z : N) : bool :=
  xorb (xorb (xorb (xorb (A x 0%nat z) (A x 1%nat z)) (A x 2%nat z)) (A x 3%nat z)) (A x 4%nat z).
Definition theta_D (A : array) (x : nat) (z : N) : bool :=
  xorb (theta_C A ((x + 4) mod 5)%nat z) (theta_C A ((x + 1) mod 5)%nat ((z + 63) mod 64)).
Definition theta (A : array) : array := fun x y z => xorb (A x y z) (theta_D A x z).

(** FIPS 202, 3.2.2: the walk that starts at (1, 0) and goes from (x, y) to (y, (2x + 3y) mod 5); at step t
    the offset is (t + 1) (t + 2) / 2. *)
Fixpoint rho_walk (steps : nat) (t : N) (x y : nat) : list (nat * nat * N) :=
  match steps with
  | O => []
  | S s => (x, y, (t + 1) * (t + 2) / 2) :: rho_walk s (t + 1) y ((2 * x + 3 * y) mod 5)%nat
  end.
Definition rho_offset (x y : nat) : N :=
  match find (fun e => Nat.eqb (fst (fst e)) x && Nat.eqb (snd (fst e)) y) (rho_walk 24 0 1 0) with
  | Some (_, _, o) => o
  | None => 0
  end.
Definition rho (A : array) : array := fun x y z => A x y ((z + (64 - rho_offset x y mod 64)) mod 64).

(** FIPS 202, 3.2.3 to 3.2.5. *)
Definition pi (A : array) : array := fun x y z => A ((x + 3 * y) mod 5)%nat x z.
Definition chi (A : array) : array := fun x y z =>
  xorb (A x y z) (andb (negb (A ((x + 1) mod 5)%nat y z)) (A ((x + 2) mod 5)%nat y z)).

(** FIPS 202, Algorithm 5: the linear feedback shift register. [R] has 8 bits. *)
Definition rc_step (R : list bool) : list bool :=
  let R9 := false :: R in
  let r i := nth i R9 false in
  [xorb (r 0%nat) (r 8%nat); r 1%nat; r 2%nat; r 3%nat; xorb (r 4%nat) (r 8%nat); xorb (r 5%nat) (r 8%nat);
   xorb (r 6%nat) (r 8%nat); r 7%nat].
Definition rc (t : nat) : bool :=
  nth 0 (Nat.iter (t mod 255) rc_step [true; false; false; false; false; false; false; false]) false.
(** FIPS 202, Algorithm 6: bit 2^j - 1 of the round constant is rc (j + 7 ir), for j from 0 to 6. *)
Definition RC (ir : nat) (z : N) : bool :=
  match find (fun j => z =? 2 ^ N.of_nat j - 1) [0; 1; 2; 3; 4; 5; 6]%nat with
  | Some j => rc (j + 7 * ir)
  | None => false
  end.
Definition iota (ir : nat) (A : array) : array := fun x y z =>
  match x, y with
  | O, O => xorb (A x y z) (RC ir z)
  | _, _ => A x y z
  end.

(** FIPS 202, 3.3 and 3.4: Keccak-f[1600], 24 rounds. *)
Definition round (ir : nat) (A : array) : array := iota ir (chi (pi (rho (theta A)))).
Fixpoint rounds (n : nat) (A : array) : array :=
  match n with
  | O => A
  | S k => round k (rounds k A)
  end.
Definition keccak_f (A : array) : array := rounds 24 A.

(** FIPS 202, 3.1.2: bit i of the state string. *)
Definition coordinate (x y : nat) (z : N) : nat := (64 * (5 * y + x) + N.to_nat z)%nat.
Definition state_bit (A : array) (i : nat) : bool :=
  A (i / 64 mod 5)%nat (i / 64 / 5)%nat (N.of_nat (i mod 64)).

(** FIPS 202, B.1: the bits of a byte string, least significant bit of each byte first. *)
Definition byte_bits (b : N) : list bool := map (N.testbit b) [0; 1; 2; 3; 4; 5; 6; 7].
Definition message_bits (m : bytes) : list bool := concat (map byte_bits m).

(** FIPS 202, Algorithm 9: pad10*1. *)
Definition pad101 (r len : nat) : list bool :=
  [true] ++ repeat false ((r - (len + 2) mod r) mod r) ++ [true].

(** FIPS 202, Algorithm 8: the sponge construction with rate [r]. Absorbing the next [r] bits [P]: *)
Definition absorb (r : nat) (A : array) (P : list bool) : array :=
  keccak_f (fun x y z =>
    xorb (A x y z) (if (coordinate x y z <? r)%nat then nth (coordinate x y z) P false else false)).
Fixpoint absorb_all (n r : nat) (A : array) (P : list bool) : array :=
  match n with
  | O => A
  | S k => absorb_all k r (absorb r A (firstn r P)) (skipn r P)
  end.
(** The first [d] bits of the state, as bytes; [d] does not exceed the rate here, so that there is nothing
    else to squeeze. *)
Definition bit_value (b : bool) : N := if b then 1 else 0.
Definition squeeze (d : nat) (A : array) : bytes :=
  map (fun k => fold_right (fun j acc => bit_value (state_bit A (8 * k + j)) + 2 * acc) 0 (seq 0 8)) (seq 0 (d / 8)).

Definition zero_array : array := fun _ _ _ => false.

(** Keccak with rate 1600 - 2 d and a digest of d bits. *)
Definition keccak_digest (d : nat) (m : bytes) : bytes :=
  let r := (1600 - 2 * d)%nat in
  let P := message_bits m ++ pad101 r (length (message_bits m)) in
  squeeze d (absorb_all (length P / r) r zero_array P).
