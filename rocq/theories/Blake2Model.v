(** Model of core/silkworm/crypto/blake2b-ref.c and of [blake2_f_run] (execution/precompiled.cpp:337-366). *)
From Verif Require Import Base KeccakModel Sha256Model.

(** blake2b-ref.c:22-24. *)
Definition blake2b_IV : list N :=
  [0x6a09e667f3bcc908; 0xbb67ae8584caa73b; 0x3c6ef372fe94f82b; 0xa54ff53a5f1d36f1; 0x510e527fade682d1; 0x9b05688c2b3e6c1f;
   0x1f83d9abfb41bd6b; 0x5be0cd19137e2179].
(** blake2b-ref.c:26-32. *)
Definition blake2b_sigma : list (list nat) :=
  [[0; 1; 2; 3; 4; 5; 6; 7; 8; 9; 10; 11; 12; 13; 14; 15]; [14; 10; 4; 8; 9; 15; 13; 6; 1; 12; 0; 2; 11; 7; 5; 3];
   [11; 8; 12; 0; 5; 2; 15; 13; 10; 14; 3; 6; 7; 1; 9; 4]; [7; 9; 3; 1; 13; 12; 11; 14; 2; 6; 5; 10; 4; 0; 15; 8];
   [9; 0; 5; 7; 2; 4; 10; 15; 14; 1; 11; 12; 6; 8; 3; 13]; [2; 12; 6; 10; 0; 11; 8; 3; 4; 13; 7; 5; 15; 14; 1; 9];
   [12; 5; 1; 15; 14; 13; 4; 10; 0; 7; 6; 3; 9; 2; 8; 11]; [13; 11; 7; 14; 12; 1; 3; 9; 5; 0; 15; 4; 8; 6; 2; 10];
   [6; 15; 14; 9; 11; 3; 0; 8; 12; 2; 13; 7; 1; 4; 10; 5]; [10; 2; 8; 4; 7; 6; 1; 5; 15; 11; 9; 14; 3; 12; 13; 0];
   [0; 1; 2; 3; 4; 5; 6; 7; 8; 9; 10; 11; 12; 13; 14; 15]; [14; 10; 4; 8; 9; 15; 13; 6; 1; 12; 0; 2; 11; 7; 5; 3]]%nat.

(** blake2b-ref.c:34-38: eight bytes, little-endian (SILKWORM_BYTE_ORDER); [None]: a read beyond the array. *)
Definition load64 (src : bytes) : option N :=
  match src with
  | b0 :: b1 :: b2 :: b3 :: b4 :: b5 :: b6 :: b7 :: _ => Some (le_to_N [b0; b1; b2; b3; b4; b5; b6; b7])
  | _ => None
  end.
(** blake2b-ref.c:40. *)
Definition rotr64 (w c : N) : N := N.lor (N.shiftr w c) (N.shiftl w (64 - c) mod 2 ^ 64).
(** 64-bit addition. *)
Definition add64 (a b : N) : N := (a + b) mod 2 ^ 64.
(** [m[i]], [None]: beyond the array. *)
Definition at_ (l : list N) (i : nat) : option N := nth_error l i.

(** blake2b-ref.c:42-52: [a], [b], [c], [d] are the indices of four distinct entries of [v]. *)
Definition G (m : list N) (r i : nat) (a b c d : nat) (v : list N) : option (list N) :=
  let? row := nth_error blake2b_sigma r in
  let? i0 := nth_error row (2 * i + 0) in
  let? i1 := nth_error row (2 * i + 1) in
  let? m0 := at_ m i0 in
  let? m1 := at_ m i1 in
  let? va := at_ v a in
  let? vb := at_ v b in
  let? vc := at_ v c in
  let? vd := at_ v d in
  let va := add64 (add64 va vb) m0 in
  let vd := rotr64 (N.lxor vd va) 32 in
  let vc := add64 vc vd in
  let vb := rotr64 (N.lxor vb vc) 24 in
  let va := add64 (add64 va vb) m1 in
  let vd := rotr64 (N.lxor vd va) 16 in
  let vc := add64 vc vd in
  let vb := rotr64 (N.lxor vb vc) 63 in
  Some (upd d vd (upd c vc (upd b vb (upd a va v)))).

(** blake2b-ref.c:54-64. *)
Definition ROUND (m : list N) (r : nat) (v : list N) : option (list N) :=
  let? v := G m r 0 0 4 8 12 v in
  let? v := G m r 1 1 5 9 13 v in
  let? v := G m r 2 2 6 10 14 v in
  let? v := G m r 3 3 7 11 15 v in
  let? v := G m r 4 0 5 10 15 v in
  let? v := G m r 5 1 6 11 12 v in
  let? v := G m r 6 2 7 8 13 v in
  G m r 7 3 4 9 14 v.

(** blake2.h:28-32. *)
Record blake2b_state := mkB { bh : list N; bt : list N; bf : list N }.

(** blake2b-ref.c:71-73 and the [memcpy] into [state.h] and [state.t] (precompiled.cpp:353, 358): words of consecutive bytes. *)
Fixpoint load_many (count : nat) (src : bytes) : option (list N) :=
  match count with
  | O => Some []
  | S c => let? w := load64 src in let? r := load_many c (skipn 8 src) in Some (w :: r)
  end.
(** blake2b-ref.c:88-90: [count] rounds from number [i] on. *)
Fixpoint rounds_loop (m : list N) (count i : nat) (v : list N) : option (list N) :=
  match count with
  | O => Some v
  | S c => let? v := ROUND m (i mod 10) v in rounds_loop m c (S i) v
  end.
(** blake2b-ref.c:92-94: [count] words from number [i] on. *)
Fixpoint fold_h (count i : nat) (v h : list N) : option (list N) :=
  match count with
  | O => Some h
  | S c =>
    let? x := at_ h i in
    let? a := at_ v i in
    let? b := at_ v (i + 8) in
    fold_h c (S i) v (upd i (N.lxor (N.lxor x a) b) h)
  end.
(** blake2b-ref.c:66-95. *)
Definition blake2b_compress (S : blake2b_state) (block : bytes) (r : N) : option blake2b_state :=
  let? m := load_many 16 block in
  match bh S, bt S, bf S, blake2b_IV with
  | [h0; h1; h2; h3; h4; h5; h6; h7], [t0; t1], [f0; f1], [iv0; iv1; iv2; iv3; iv4; iv5; iv6; iv7] =>
    let v := [h0; h1; h2; h3; h4; h5; h6; h7; iv0; iv1; iv2; iv3; N.lxor iv4 t0; N.lxor iv5 t1; N.lxor iv6 f0; N.lxor iv7 f1] in
    let? v := rounds_loop m (N.to_nat r) 0 v in
    let? h := fold_h 8 0 v (bh S) in
    Some (mkB h (bt S) (bf S))
  | _, _, _, _ => None
  end.

(** The [memcpy] out of [state.h] (precompiled.cpp:364): a word is eight bytes, the low one first. *)
Fixpoint store64 (count : nat) (w : N) : bytes :=
  match count with
  | O => []
  | S c => w mod 256 :: store64 c (N.shiftr w 8)
  end.

(** execution/precompiled.cpp:337-366. The outer [None]: undefined behaviour. The inner one: std::nullopt, the call fails. *)
Definition blake2_f_run (input : bytes) : option (option bytes) :=
  if negb (Nat.eqb (length input) 213) then Some None
  else
    let? f := nth_error input 212 in
    if negb (N.eqb f 0) && negb (N.eqb f 1) then Some None
    else
      let ff := if N.eqb f 0 then [0; 0] else [2 ^ 64 - 1; 0] in
      let? h := load_many 8 (skipn 4 input) in
      let block := firstn 128 (skipn 68 input) in
      let? t := load_many 2 (skipn 196 input) in
      let r := be_to_N (firstn 4 input) in
      let? state := blake2b_compress (mkB h t ff) block r in
      Some (Some (concat (map (store64 8) (bh state)))).
