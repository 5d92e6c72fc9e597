(** Model of core/silkworm/crypto/sha-256.c and of [sha256_run] (execution/precompiled.cpp:82-86). *)
From Verif Require Import Base.

Notation "'let?' x := a 'in' b" := (match a with Some x => b | None => None end) (at level 200, x pattern, a at level 100, b at level 200).

(** sha-256.c:25-34. *)
Definition k : list N :=
  [0x428a2f98; 0x71374491; 0xb5c0fbcf; 0xe9b5dba5; 0x3956c25b; 0x59f111f1; 0x923f82a4; 0xab1c5ed5;
   0xd807aa98; 0x12835b01; 0x243185be; 0x550c7dc3; 0x72be5d74; 0x80deb1fe; 0x9bdc06a7; 0xc19bf174;
   0xe49b69c1; 0xefbe4786; 0x0fc19dc6; 0x240ca1cc; 0x2de92c6f; 0x4a7484aa; 0x5cb0a9dc; 0x76f988da;
   0x983e5152; 0xa831c66d; 0xb00327c8; 0xbf597fc7; 0xc6e00bf3; 0xd5a79147; 0x06ca6351; 0x14292967;
   0x27b70a85; 0x2e1b2138; 0x4d2c6dfc; 0x53380d13; 0x650a7354; 0x766a0abb; 0x81c2c92e; 0x92722c85;
   0xa2bfe8a1; 0xa81a664b; 0xc24b8b70; 0xc76c51a3; 0xd192e819; 0xd6990624; 0xf40e3585; 0x106aa070;
   0x19a4c116; 0x1e376c08; 0x2748774c; 0x34b0bcb5; 0x391c0cb3; 0x4ed8aa4a; 0x5b9cca4f; 0x682e6ff3;
   0x748f82ee; 0x78a5636f; 0x84c87814; 0x8cc70208; 0x90befffa; 0xa4506ceb; 0xbef9a3f7; 0xc67178f2].

(** sha-256.c:44-51; [value << (32 - count)] is a 32-bit shift. *)
Definition right_rot (value count : N) : N := N.lor (N.shiftr value count) (N.shiftl value (32 - count) mod 2 ^ 32).
(** 32-bit addition and complement. *)
Definition plus (a b : N) : N := (a + b) mod 2 ^ 32.
Definition compl (a : N) : N := N.lxor a (2 ^ 32 - 1).
(** [a[i] = x]. *)
Fixpoint upd {X} (i : nat) (x : X) (l : list X) : list X :=
  match l, i with
  | [], _ => []
  | _ :: r, O => x :: r
  | y :: r, S j => y :: upd j x r
  end.

(** sha-256.c:36-42, 53-60: [p] is what is left of the input. *)
Record buffer_state := mkState { p : bytes; len : nat; total_len : N; single_one_delivered : bool; total_len_delivered : bool }.
Definition init_buf_state (input : bytes) : buffer_state := mkState input (length input) (blen input) false false.

(** sha-256.c:107-110: [chunk[i] = (uint8_t) len; len >>= 8] for [i] from 6 down to 0. *)
Fixpoint len_bytes (count : nat) (len : N) : bytes :=
  match count with
  | O => []
  | S c => len_bytes c (N.shiftr len 8) ++ [len mod 256]
  end.

(** sha-256.c:63-117. The outer [None]: a read beyond the input, or a chunk that is not filled. The inner [None]: return 0. Each call fills
    all 64 bytes, so the chunk is the result instead of an array that is written to. *)
Definition calc_chunk (state : buffer_state) : option (option (bytes * buffer_state)) :=
  if total_len_delivered state then Some None
  else if (64 <=? len state)%nat then
    if (length (p state) <? 64)%nat then None
    else Some (Some (firstn 64 (p state), mkState (skipn 64 (p state)) (len state - 64) (total_len state) (single_one_delivered state) false))
  else if (length (p state) <? len state)%nat then None
  else
    let copied := firstn (len state) (p state) in
    let space := (64 - len state)%nat in
    let rest := skipn (len state) (p state) in
    let copied := if single_one_delivered state then copied else copied ++ [128] in
    let space := if single_one_delivered state then space else (space - 1)%nat in
    let '(chunk, delivered) :=
      if (8 <=? space)%nat then
        (copied ++ zeros (space - 8) ++ len_bytes 7 (N.shiftr (total_len state) 5) ++ [(N.shiftl (total_len state) 3) mod 256], true)
      else (copied ++ zeros space, false) in
    Some (Some (chunk, mkState rest 0 (total_len state) true delivered)).

(** [w]: an entry is [None] while it is indeterminate, and so is what is computed from it. *)
Definition fresh_w : list (option N) := repeat None 16.
Definition get_w (w : list (option N)) (i : nat) : option N := match nth_error w i with Some (Some x) => Some x | _ => None end.

(** sha-256.c:180-190: the new value of [w[j]]. *)
Definition next_w (chunk : bytes) (i j : nat) (w : list (option N)) : option N :=
  if (i =? 0)%nat then
    match skipn (4 * j) chunk with
    | p0 :: p1 :: p2 :: p3 :: _ =>
      Some (N.lor (N.lor (N.lor (N.shiftl p0 24) (N.shiftl p1 16)) (N.shiftl p2 8)) p3)
    | _ => None
    end
  else
    let? w1 := get_w w (Nat.land (j + 1) 15) in
    let? w14 := get_w w (Nat.land (j + 14) 15) in
    let? wj := get_w w j in
    let? w9 := get_w w (Nat.land (j + 9) 15) in
    let s0 := N.lxor (N.lxor (right_rot w1 7) (right_rot w1 18)) (N.shiftr w1 3) in
    let s1 := N.lxor (N.lxor (right_rot w14 17) (right_rot w14 19)) (N.shiftr w14 10) in
    Some (plus (plus (plus wj s0) w9) s1).

(** sha-256.c:191-205. *)
Definition next_ah (i j : nat) (wj : N) (ah : list N) : list N :=
  let a n := nth n ah 0 in
  let s1 := N.lxor (N.lxor (right_rot (a 4%nat) 6) (right_rot (a 4%nat) 11)) (right_rot (a 4%nat) 25) in
  let ch := N.lxor (N.land (a 4%nat) (a 5%nat)) (N.land (compl (a 4%nat)) (a 6%nat)) in
  let temp1 := plus (plus (plus (plus (a 7%nat) s1) ch) (nth (Nat.lor (Nat.shiftl i 4) j) k 0)) wj in
  let s0 := N.lxor (N.lxor (right_rot (a 0%nat) 2) (right_rot (a 0%nat) 13)) (right_rot (a 0%nat) 22) in
  let maj := N.lxor (N.lxor (N.land (a 0%nat) (a 1%nat)) (N.land (a 0%nat) (a 2%nat))) (N.land (a 1%nat) (a 2%nat)) in
  let temp2 := plus s0 maj in
  let ah := upd 7 (nth 6 ah 0) ah in
  let ah := upd 6 (nth 5 ah 0) ah in
  let ah := upd 5 (nth 4 ah 0) ah in
  let ah := upd 4 (plus (nth 3 ah 0) temp1) ah in
  let ah := upd 3 (nth 2 ah 0) ah in
  let ah := upd 2 (nth 1 ah 0) ah in
  let ah := upd 1 (nth 0 ah 0) ah in
  upd 0 (plus temp1 temp2) ah.

(** sha-256.c:180-206: the loop over [j]; [js] are the values still to come. *)
Fixpoint inner (chunk : bytes) (i : nat) (js : list nat) (w : list (option N)) (ah : list N) : option (list (option N) * list N) :=
  match js with
  | [] => Some (w, ah)
  | j :: r =>
    let? wj := next_w chunk i j w in
    inner chunk i r (upd j (Some wj) w) (next_ah i j wj ah)
  end.

(** sha-256.c:162-207: the loop over [i]. The array [w] is declared in the body of this loop without an initialiser, so its value becomes
    indeterminate on every iteration (C11 6.2.4 p6). [keep] says whether it happens to keep its contents. *)
Fixpoint outer (keep : bool) (chunk : bytes) (is : list nat) (w : list (option N)) (ah : list N) : option (list N) :=
  match is with
  | [] => Some ah
  | i :: r =>
    let w := if keep then w else fresh_w in
    let? (w, ah) := inner chunk i (seq 0 16) w ah in
    outer keep chunk r w ah
  end.

(** sha-256.c:152-212: the loop over the chunks. *)
Fixpoint chunks (keep : bool) (fuel : nat) (state : buffer_state) (h : list N) : option (list N) :=
  match fuel with
  | O => None
  | S f =>
    match calc_chunk state with
    | None => None
    | Some None => Some h
    | Some (Some (chunk, state)) =>
      let? ah := outer keep chunk (seq 0 4) fresh_w h in
      chunks keep f state (map (fun x => plus (fst x) (snd x)) (combine h ah))
    end
  end.

(** sha-256.c:214-221. *)
Definition store_word (x : N) : bytes := [N.shiftr x 24 mod 256; N.shiftr x 16 mod 256; N.shiftr x 8 mod 256; x mod 256].

(** sha-256.c:127-222. *)
Definition initial_h : list N :=
  [0x6a09e667; 0xbb67ae85; 0x3c6ef372; 0xa54ff53a; 0x510e527f; 0x9b05688c; 0x1f83d9ab; 0x5be0cd19].
Definition calc_sha_256 (keep : bool) (input : bytes) : option bytes :=
  let? h := chunks keep (length input / 64 + 3) (init_buf_state input) initial_h in
  Some (concat (map store_word h)).

(** execution/precompiled.cpp:82-86. The outer [None]: undefined behaviour. *)
Definition sha256_run (keep : bool) (input : bytes) : option (option bytes) :=
  let? out := calc_sha_256 keep input in Some (Some out).
