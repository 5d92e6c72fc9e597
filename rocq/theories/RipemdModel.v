(** Model of core/silkworm/crypto/rmd160.c, rmd160.cpp and of [rip160_run] (execution/precompiled.cpp:90-94). *)
From Verif Require Import Base KeccakModel Sha256Model.

(** rmd160.c:49. *)
Definition ROL (x n : N) : N := N.lor (N.shiftl x n mod 2 ^ 32) (N.shiftr x (32 - n)).

(** rmd160.c:52-56. *)
Inductive basic := F | G | H | I | J.
Definition apply_basic (op : basic) (x y z : N) : N :=
  match op with
  | F => N.lxor (N.lxor x y) z
  | G => N.lor (N.land x y) (N.land (compl x) z)
  | H => N.lxor (N.lor x (compl y)) z
  | I => N.lor (N.land x z) (N.land y (compl z))
  | J => N.lxor x (N.lor y (compl z))
  end.

(** rmd160.c:59-108: a use of one of the ten macros: the basic function, the constant, the places of the five variables, the
    index into [X] and the shift. *)
Record operation := Op { o_f : basic; o_k : N; o_a : nat; o_b : nat; o_c : nat; o_d : nat; o_e : nat; o_x : nat; o_s : N }.
Definition FF a b c d e x s := Op F 0 a b c d e x s.
Definition GG a b c d e x s := Op G 0x5a827999 a b c d e x s.
Definition HH a b c d e x s := Op H 0x6ed9eba1 a b c d e x s.
Definition II a b c d e x s := Op I 0x8f1bbcdc a b c d e x s.
Definition JJ a b c d e x s := Op J 0xa953fd4e a b c d e x s.
Definition FFF a b c d e x s := Op F 0 a b c d e x s.
Definition GGG a b c d e x s := Op G 0x7a6d76e9 a b c d e x s.
Definition HHH a b c d e x s := Op H 0x6d703ef3 a b c d e x s.
Definition III a b c d e x s := Op I 0x5c4dd124 a b c d e x s.
Definition JJJ a b c d e x s := Op J 0x50a28be6 a b c d e x s.

(** The three assignments of a macro, on the five variables of a line: [a += f(b, c, d) + x + k; a = ROL(a, s) + e; c = ROL(c, 10)]. The
    constants are of type unsigned long, so the sum is truncated when it is assigned. *)
Definition perform (X : list N) (v : list N) (o : operation) : list N :=
  let v := upd (o_a o) (plus (nth (o_a o) v 0) (apply_basic (o_f o) (nth (o_b o) v 0) (nth (o_c o) v 0) (nth (o_d o) v 0) + nth (o_x o) X 0 + o_k o)) v in
  let v := upd (o_a o) (plus (ROL (nth (o_a o) v 0) (o_s o)) (nth (o_e o) v 0)) v in
  upd (o_c o) (ROL (nth (o_c o) v 0) 10) v.

(** rmd160.c:132-220. *)
Definition aa := 0%nat. Definition bb := 1%nat. Definition cc := 2%nat. Definition dd := 3%nat. Definition ee := 4%nat.
Definition left_line : list operation :=
  [FF aa bb cc dd ee 0 11; FF ee aa bb cc dd 1 14; FF dd ee aa bb cc 2 15; FF cc dd ee aa bb 3 12;
   FF bb cc dd ee aa 4 5; FF aa bb cc dd ee 5 8; FF ee aa bb cc dd 6 7; FF dd ee aa bb cc 7 9;
   FF cc dd ee aa bb 8 11; FF bb cc dd ee aa 9 13; FF aa bb cc dd ee 10 14; FF ee aa bb cc dd 11 15;
   FF dd ee aa bb cc 12 6; FF cc dd ee aa bb 13 7; FF bb cc dd ee aa 14 9; FF aa bb cc dd ee 15 8;
   GG ee aa bb cc dd 7 7; GG dd ee aa bb cc 4 6; GG cc dd ee aa bb 13 8; GG bb cc dd ee aa 1 13;
   GG aa bb cc dd ee 10 11; GG ee aa bb cc dd 6 9; GG dd ee aa bb cc 15 7; GG cc dd ee aa bb 3 15;
   GG bb cc dd ee aa 12 7; GG aa bb cc dd ee 0 12; GG ee aa bb cc dd 9 15; GG dd ee aa bb cc 5 9;
   GG cc dd ee aa bb 2 11; GG bb cc dd ee aa 14 7; GG aa bb cc dd ee 11 13; GG ee aa bb cc dd 8 12;
   HH dd ee aa bb cc 3 11; HH cc dd ee aa bb 10 13; HH bb cc dd ee aa 14 6; HH aa bb cc dd ee 4 7;
   HH ee aa bb cc dd 9 14; HH dd ee aa bb cc 15 9; HH cc dd ee aa bb 8 13; HH bb cc dd ee aa 1 15;
   HH aa bb cc dd ee 2 14; HH ee aa bb cc dd 7 8; HH dd ee aa bb cc 0 13; HH cc dd ee aa bb 6 6;
   HH bb cc dd ee aa 13 5; HH aa bb cc dd ee 11 12; HH ee aa bb cc dd 5 7; HH dd ee aa bb cc 12 5;
   II cc dd ee aa bb 1 11; II bb cc dd ee aa 9 12; II aa bb cc dd ee 11 14; II ee aa bb cc dd 10 15;
   II dd ee aa bb cc 0 14; II cc dd ee aa bb 8 15; II bb cc dd ee aa 12 9; II aa bb cc dd ee 4 8;
   II ee aa bb cc dd 13 9; II dd ee aa bb cc 3 14; II cc dd ee aa bb 7 5; II bb cc dd ee aa 15 6;
   II aa bb cc dd ee 14 8; II ee aa bb cc dd 5 6; II dd ee aa bb cc 6 5; II cc dd ee aa bb 2 12;
   JJ bb cc dd ee aa 4 9; JJ aa bb cc dd ee 0 15; JJ ee aa bb cc dd 5 5; JJ dd ee aa bb cc 9 11;
   JJ cc dd ee aa bb 7 6; JJ bb cc dd ee aa 12 8; JJ aa bb cc dd ee 2 13; JJ ee aa bb cc dd 10 12;
   JJ dd ee aa bb cc 14 5; JJ cc dd ee aa bb 1 12; JJ bb cc dd ee aa 3 13; JJ aa bb cc dd ee 8 14;
   JJ ee aa bb cc dd 11 11; JJ dd ee aa bb cc 6 8; JJ cc dd ee aa bb 15 5; JJ bb cc dd ee aa 13 6].
(** rmd160.c:222-310. *)
Definition aaa := 0%nat. Definition bbb := 1%nat. Definition ccc := 2%nat. Definition ddd := 3%nat. Definition eee := 4%nat.
Definition right_line : list operation :=
  [JJJ aaa bbb ccc ddd eee 5 8; JJJ eee aaa bbb ccc ddd 14 9; JJJ ddd eee aaa bbb ccc 7 9; JJJ ccc ddd eee aaa bbb 0 11;
   JJJ bbb ccc ddd eee aaa 9 13; JJJ aaa bbb ccc ddd eee 2 15; JJJ eee aaa bbb ccc ddd 11 15; JJJ ddd eee aaa bbb ccc 4 5;
   JJJ ccc ddd eee aaa bbb 13 7; JJJ bbb ccc ddd eee aaa 6 7; JJJ aaa bbb ccc ddd eee 15 8; JJJ eee aaa bbb ccc ddd 8 11;
   JJJ ddd eee aaa bbb ccc 1 14; JJJ ccc ddd eee aaa bbb 10 14; JJJ bbb ccc ddd eee aaa 3 12; JJJ aaa bbb ccc ddd eee 12 6;
   III eee aaa bbb ccc ddd 6 9; III ddd eee aaa bbb ccc 11 13; III ccc ddd eee aaa bbb 3 15; III bbb ccc ddd eee aaa 7 7;
   III aaa bbb ccc ddd eee 0 12; III eee aaa bbb ccc ddd 13 8; III ddd eee aaa bbb ccc 5 9; III ccc ddd eee aaa bbb 10 11;
   III bbb ccc ddd eee aaa 14 7; III aaa bbb ccc ddd eee 15 7; III eee aaa bbb ccc ddd 8 12; III ddd eee aaa bbb ccc 12 7;
   III ccc ddd eee aaa bbb 4 6; III bbb ccc ddd eee aaa 9 15; III aaa bbb ccc ddd eee 1 13; III eee aaa bbb ccc ddd 2 11;
   HHH ddd eee aaa bbb ccc 15 9; HHH ccc ddd eee aaa bbb 5 7; HHH bbb ccc ddd eee aaa 1 15; HHH aaa bbb ccc ddd eee 3 11;
   HHH eee aaa bbb ccc ddd 7 8; HHH ddd eee aaa bbb ccc 14 6; HHH ccc ddd eee aaa bbb 6 6; HHH bbb ccc ddd eee aaa 9 14;
   HHH aaa bbb ccc ddd eee 11 12; HHH eee aaa bbb ccc ddd 8 13; HHH ddd eee aaa bbb ccc 12 5; HHH ccc ddd eee aaa bbb 2 14;
   HHH bbb ccc ddd eee aaa 10 13; HHH aaa bbb ccc ddd eee 0 13; HHH eee aaa bbb ccc ddd 4 7; HHH ddd eee aaa bbb ccc 13 5;
   GGG ccc ddd eee aaa bbb 8 15; GGG bbb ccc ddd eee aaa 6 5; GGG aaa bbb ccc ddd eee 4 8; GGG eee aaa bbb ccc ddd 1 11;
   GGG ddd eee aaa bbb ccc 3 14; GGG ccc ddd eee aaa bbb 11 14; GGG bbb ccc ddd eee aaa 15 6; GGG aaa bbb ccc ddd eee 0 14;
   GGG eee aaa bbb ccc ddd 5 6; GGG ddd eee aaa bbb ccc 12 9; GGG ccc ddd eee aaa bbb 2 12; GGG bbb ccc ddd eee aaa 13 9;
   GGG aaa bbb ccc ddd eee 9 12; GGG eee aaa bbb ccc ddd 7 5; GGG ddd eee aaa bbb ccc 10 15; GGG ccc ddd eee aaa bbb 14 8;
   FFF bbb ccc ddd eee aaa 12 8; FFF aaa bbb ccc ddd eee 15 5; FFF eee aaa bbb ccc ddd 10 12; FFF ddd eee aaa bbb ccc 4 9;
   FFF ccc ddd eee aaa bbb 1 12; FFF bbb ccc ddd eee aaa 5 5; FFF aaa bbb ccc ddd eee 8 14; FFF eee aaa bbb ccc ddd 7 6;
   FFF ddd eee aaa bbb ccc 6 8; FFF ccc ddd eee aaa bbb 2 13; FFF bbb ccc ddd eee aaa 13 6; FFF aaa bbb ccc ddd eee 14 5;
   FFF eee aaa bbb ccc ddd 0 15; FFF ddd eee aaa bbb ccc 3 13; FFF ccc ddd eee aaa bbb 9 11; FFF bbb ccc ddd eee aaa 11 11].

(** rmd160.c:112-121. *)
Definition rmd160_init : list N := [0x67452301; 0xefcdab89; 0x98badcfe; 0x10325476; 0xc3d2e1f0].

(** rmd160.c:125-321. *)
Definition rmd160_compress (MDbuf X : list N) : list N :=
  let l := fold_left (perform X) left_line MDbuf in
  let r := fold_left (perform X) right_line MDbuf in
  let m i := nth i MDbuf 0 in
  let new0 := plus (nth ddd r 0) (plus (nth cc l 0) (m 1%nat)) in
  let MDbuf := upd 1 (plus (plus (m 2%nat) (nth dd l 0)) (nth eee r 0)) MDbuf in
  let MDbuf := upd 2 (plus (plus (nth 3 MDbuf 0) (nth ee l 0)) (nth aaa r 0)) MDbuf in
  let MDbuf := upd 3 (plus (plus (nth 4 MDbuf 0) (nth aa l 0)) (nth bbb r 0)) MDbuf in
  let MDbuf := upd 4 (plus (plus (nth 0 MDbuf 0) (nth bb l 0)) (nth ccc r 0)) MDbuf in
  upd 0 new0 MDbuf.

(** rmd160.c:333-336: the bytes from byte [i] on; [None]: a read beyond the string. *)
Fixpoint put_bytes (count : nat) (i : nat) (str : bytes) (X : list N) : option (list N) :=
  match count with
  | O => Some X
  | S c =>
    match str with
    | [] => None
    | b :: r => put_bytes c (S i) r (upd (i / 4) (N.lxor (nth (i / 4) X 0) (N.shiftl b (8 * N.of_nat (i mod 4)))) X)
    end
  end.

(** rmd160.c:325-353. *)
Definition rmd160_finish (MDbuf : list N) (str : bytes) (lswlen mswlen : N) : option (list N) :=
  let X := repeat 0 16 in
  let? X := put_bytes (N.to_nat (N.land lswlen 63)) 0 str X in
  let at1 := N.to_nat (N.land (N.shiftr lswlen 2) 15) in
  let X := upd at1 (N.lxor (nth at1 X 0) (N.shiftl 1 (8 * N.land lswlen 3 + 7))) X in
  let '(MDbuf, X) := if 55 <? N.land lswlen 63 then (rmd160_compress MDbuf X, repeat 0 16) else (MDbuf, X) in
  let X := upd 14 (N.shiftl lswlen 3 mod 2 ^ 32) X in
  let X := upd 15 (N.lor (N.shiftr lswlen 29) (N.shiftl mswlen 3 mod 2 ^ 32)) X in
  Some (rmd160_compress MDbuf X).

(** rmd160.cpp:34-37: sixteen little-endian words (endian.hpp load_little_u32) and the rest; [None]: a read beyond the input. *)
Fixpoint load_words (count : nat) (ptr : bytes) : option (list N * bytes) :=
  match count with
  | O => Some ([], ptr)
  | S c =>
    match ptr with
    | b0 :: b1 :: b2 :: b3 :: r =>
      let? (ws, rest) := load_words c r in
      Some (le_to_N [b0; b1; b2; b3] :: ws, rest)
    | _ => None
    end
  end.

(** rmd160.cpp:33-39: the loop over the whole blocks. *)
Fixpoint whole_blocks (fuel : nat) (remaining : nat) (ptr : bytes) (buf : list N) : option (list N * bytes) :=
  match fuel with
  | O => None
  | S n =>
    if (64 <=? remaining)%nat then
      let? (current, ptr) := load_words 16 ptr in
      whole_blocks n (remaining - 64) ptr (rmd160_compress buf current)
    else Some (buf, ptr)
  end.

(** rmd160.cpp:43-48. *)
Definition store_little (x : N) : bytes := [x mod 256; N.shiftr x 8 mod 256; N.shiftr x 16 mod 256; N.shiftr x 24 mod 256].

(** rmd160.cpp:25-49: the size is converted to 32 bits in the call of [rmd160_finish], and the high word is given as 0. *)
Definition calculate_ripemd_160 (input : bytes) : option bytes :=
  let? (buf, ptr) := whole_blocks (length input / 64 + 1) (length input) input rmd160_init in
  let? buf := rmd160_finish buf ptr (blen input mod 2 ^ 32) 0 in
  Some (concat (map store_little buf)).

(** execution/precompiled.cpp:90-94: twenty bytes at the end of 32. The outer [None]: undefined behaviour. *)
Definition rip160_run (input : bytes) : option (option bytes) :=
  let? out := calculate_ripemd_160 input in Some (Some (zeros 12 ++ out)).
