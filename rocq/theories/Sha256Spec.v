(** SHA-256 after FIPS 180-4, sections 2.2.2, 3.2, 4.1.2, 4.2.2, 5.1.1, 5.2.1, 5.3.3 and 6.2. Words are numbers below 2^32. *)
From Verif Require Import Base.

Definition plus32 (a b : N) : N := (a + b) mod 2 ^ 32.
(** ROTR^n(x) and SHR^n(x), written with division. *)
Definition ROTR (n x : N) : N := x / 2 ^ n + x mod 2 ^ n * 2 ^ (32 - n).
Definition SHR (n x : N) : N := x / 2 ^ n.
Definition NOT (x : N) : N := 2 ^ 32 - 1 - x.

(** 4.1.2 *)
Definition Ch (x y z : N) : N := N.lxor (N.land x y) (N.land (NOT x) z).
Definition Maj (x y z : N) : N := N.lxor (N.lxor (N.land x y) (N.land x z)) (N.land y z).
Definition Sigma0 (x : N) : N := N.lxor (N.lxor (ROTR 2 x) (ROTR 13 x)) (ROTR 22 x).
Definition Sigma1 (x : N) : N := N.lxor (N.lxor (ROTR 6 x) (ROTR 11 x)) (ROTR 25 x).
Definition sigma0 (x : N) : N := N.lxor (N.lxor (ROTR 7 x) (ROTR 18 x)) (SHR 3 x).
Definition sigma1 (x : N) : N := N.lxor (N.lxor (ROTR 17 x) (ROTR 19 x)) (SHR 10 x).

(** Roots of primes: [is_root k p bits c]: [c] is the first [bits] bits of the fractional part of the [k]-th root
    of [p]. *)
Definition is_root (k p bits c : N) : Prop :=
  exists r, r ^ k <= p * 2 ^ (k * bits) /\ p * 2 ^ (k * bits) < (r + 1) ^ k /\ c = r mod 2 ^ bits.
(** The first 64 primes. *)
Definition primes : list N :=
  [2; 3; 5; 7; 11; 13; 17; 19; 23; 29; 31; 37; 41; 43; 47; 53; 59; 61; 67; 71; 73; 79; 83; 89; 97; 101; 103; 107; 109; 113; 127; 131;
   137; 139; 149; 151; 157; 163; 167; 173; 179; 181; 191; 193; 197; 199; 211; 223; 227; 229; 233; 239; 241; 251; 257; 263; 269; 271;
   277; 281; 283; 293; 307; 311].
(** The root itself, by bits from the highest. *)
Fixpoint root_from (k target : N) (bits : nat) (r : N) : N :=
  match bits with
  | O => r
  | S b => let r' := r + 2 ^ N.of_nat b in root_from k target b (if r' ^ k <=? target then r' else r)
  end.
Definition root_bits (k p bits : N) : N := root_from k (p * 2 ^ (k * bits)) (N.to_nat (bits + 8)) 0 mod 2 ^ bits.

(** 4.2.2 and 5.3.3: the constants are bits of roots of primes. *)
Definition K (t : nat) : N := root_bits 3 (nth t primes 0) 32.
Definition H0 : list N := map (fun p => root_bits 2 p 32) (firstn 8 primes).

(** 5.1.1: the padded message, in bytes: a one bit, the least number of zero bits that leaves room for the length,
    and the length in bits in 64 bits. *)
Definition pad_zeros (len : nat) : nat := (119 - len mod 64) mod 64.
Definition padded (m : bytes) : bytes := m ++ [128] ++ zeros (pad_zeros (length m)) ++ be_fixed 8 (8 * blen m).

(** 5.2.1: blocks of sixteen big-endian words. *)
Fixpoint be_words (b : bytes) : list N :=
  match b with
  | x :: y :: z :: t :: r => be_to_N [x; y; z; t] :: be_words r
  | _ => []
  end.

(** 6.2.2 step 1: the message schedule, extended word by word. *)
Fixpoint extend (n : nat) (W : list N) : list N :=
  match n with
  | O => W
  | S k =>
    let t := length W in
    extend k (W ++ [plus32 (plus32 (plus32 (sigma1 (nth (t - 2) W 0)) (nth (t - 7) W 0)) (sigma0 (nth (t - 15) W 0))) (nth (t - 16) W 0)])
  end.
Definition schedule (M : list N) : list N := extend 48 M.

(** 6.2.2 steps 2-4. *)
Record working := mkW { wa : N; wb : N; wc : N; wd : N; we : N; wf : N; wg : N; wh : N }.
Definition round (W : list N) (v : working) (t : nat) : working :=
  let T1 := plus32 (plus32 (plus32 (plus32 (wh v) (Sigma1 (we v))) (Ch (we v) (wf v) (wg v))) (K t)) (nth t W 0) in
  let T2 := plus32 (Sigma0 (wa v)) (Maj (wa v) (wb v) (wc v)) in
  mkW (plus32 T1 T2) (wa v) (wb v) (wc v) (plus32 (wd v) T1) (we v) (wf v) (wg v).
Definition of_list (H : list N) : working :=
  mkW (nth 0 H 0) (nth 1 H 0) (nth 2 H 0) (nth 3 H 0) (nth 4 H 0) (nth 5 H 0) (nth 6 H 0) (nth 7 H 0).
Definition to_list (v : working) : list N := [wa v; wb v; wc v; wd v; we v; wf v; wg v; wh v].
Definition add_lists (a b : list N) : list N := map (fun p => plus32 (fst p) (snd p)) (combine a b).
Definition compress_block (H : list N) (block : bytes) : list N :=
  add_lists (to_list (fold_left (round (schedule (be_words block))) (seq 0 64) (of_list H))) H.

(** The blocks in turn; the digest is the last hash value. *)
Fixpoint hash_blocks (n : nat) (H : list N) (b : bytes) : list N :=
  match n with
  | O => H
  | S k => hash_blocks k (compress_block H (firstn 64 b)) (skipn 64 b)
  end.
Definition sha256 (m : bytes) : bytes :=
  concat (map (be_fixed 4) (hash_blocks (length (padded m) / 64) H0 (padded m))).
