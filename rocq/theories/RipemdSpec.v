(** RIPEMD-160 after H. Dobbertin, A. Bosselaers, B. Preneel, "RIPEMD-160: A Strengthened Version of RIPEMD" (1996),
    appendix A. Words are numbers below 2^32. *)
From Verif Require Import Base Sha256Spec.

(** Cyclic left shift over [s] positions, written with division. *)
Definition rol (s x : N) : N := x * 2 ^ s mod 2 ^ 32 + x / 2 ^ (32 - s).

(** Nonlinear functions at bit level, by round. *)
Definition f (round : nat) (x y z : N) : N :=
  match round with
  | 0 => N.lxor (N.lxor x y) z
  | 1 => N.lor (N.land x y) (N.land (NOT x) z)
  | 2 => N.lxor (N.lor x (NOT y)) z
  | 3 => N.lor (N.land x z) (N.land y (NOT z))
  | _ => N.lxor x (N.lor y (NOT z))
  end%nat.

(** Added constants: the integer parts of 2^30 times the square roots (left) and cube roots (right) of 2, 3, 5, 7. *)
Definition root_part (k p : N) : N := root_from k (p * 2 ^ (30 * k)) 33 0.
Definition K_left (round : nat) : N := nth round [0; root_part 2 2; root_part 2 3; root_part 2 5; root_part 2 7] 0.
Definition K_right (round : nat) : N := nth round [root_part 3 2; root_part 3 3; root_part 3 5; root_part 3 7; 0] 0.

(** Selection of message word: the permutation rho, and pi(i) = 9 i + 5 mod 16. *)
Definition rho (i : nat) : nat := nth i [7; 4; 13; 1; 10; 6; 15; 3; 12; 0; 9; 5; 2; 14; 11; 8]%nat 0%nat.
Definition pi (i : nat) : nat := ((9 * i + 5) mod 16)%nat.
Definition r_left (j : nat) : nat := Nat.iter (j / 16) rho (j mod 16)%nat.
Definition r_right (j : nat) : nat := Nat.iter (j / 16) rho (pi (j mod 16)).

(** Amount for rotate left: by round and message word, the same in both lines. *)
Definition shifts : list (list N) :=
  [[11; 14; 15; 12; 5; 8; 7; 9; 11; 13; 14; 15; 6; 7; 9; 8];
   [12; 13; 11; 15; 6; 9; 9; 7; 12; 15; 11; 13; 7; 8; 7; 7];
   [13; 15; 14; 11; 7; 7; 6; 8; 13; 14; 13; 12; 5; 5; 6; 9];
   [14; 11; 12; 14; 8; 6; 5; 5; 15; 12; 15; 14; 9; 9; 8; 6];
   [15; 12; 13; 13; 9; 5; 8; 6; 14; 11; 12; 11; 8; 6; 5; 5]].
Definition shift (round word : nat) : N := nth word (nth round shifts []) 0.

(** One step: T := rol_s(A + f(B, C, D) + X + K) + E; A := E; E := D; D := rol_10(C); C := B; B := T. *)
Record chain := mkChain { cA : N; cB : N; cC : N; cD : N; cE : N }.
Definition step (f : N -> N -> N -> N) (x K s : N) (v : chain) : chain :=
  let T := plus32 (rol s (plus32 (plus32 (plus32 (cA v) (f (cB v) (cC v) (cD v))) x) K)) (cE v) in
  mkChain (cE v) T (cB v) (rol 10 (cC v)) (cD v).
Definition left_step (X : list N) (v : chain) (j : nat) : chain :=
  step (f (j / 16)) (nth (r_left j) X 0) (K_left (j / 16)) (shift (j / 16) (r_left j)) v.
Definition right_step (X : list N) (v : chain) (j : nat) : chain :=
  step (f (4 - j / 16)) (nth (r_right j) X 0) (K_right (j / 16)) (shift (j / 16) (r_right j)) v.

Definition rmd_compress (h : chain) (X : list N) : chain :=
  let v := fold_left (left_step X) (seq 0 80) h in
  let v' := fold_left (right_step X) (seq 0 80) h in
  mkChain (plus32 (plus32 (cB h) (cC v)) (cD v')) (plus32 (plus32 (cC h) (cD v)) (cE v')) (plus32 (plus32 (cD h) (cE v)) (cA v'))
    (plus32 (plus32 (cE h) (cA v)) (cB v')) (plus32 (plus32 (cA h) (cB v)) (cC v')).

Definition rmd_initial : chain := mkChain 0x67452301 0xefcdab89 0x98badcfe 0x10325476 0xc3d2e1f0.

(** Padding as for MD4, with the length as a little-endian number; blocks of sixteen little-endian words. *)
Definition le_fixed (k : nat) (n : N) : bytes := rev (be_fixed k n).
Definition rmd_padded (m : bytes) : bytes := m ++ [128] ++ zeros (pad_zeros (length m)) ++ le_fixed 8 (8 * blen m).
Fixpoint le_words (b : bytes) : list N :=
  match b with
  | x :: y :: z :: t :: r => be_to_N [t; z; y; x] :: le_words r
  | _ => []
  end.
Fixpoint rmd_blocks (n : nat) (h : chain) (b : bytes) : chain :=
  match n with
  | O => h
  | S k => rmd_blocks k (rmd_compress h (le_words (firstn 64 b))) (skipn 64 b)
  end.
Definition ripemd160 (m : bytes) : bytes :=
  let h := rmd_blocks (length (rmd_padded m) / 64) rmd_initial (rmd_padded m) in
  concat (map (le_fixed 4) [cA h; cB h; cC h; cD h; cE h]).
