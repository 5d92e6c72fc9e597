(** Elliptic curves: SEC 1 (secp256k1, recovery of a public key), EIP-196 and EIP-197 (alt_bn128). *)
From Verif Require Import Base KeccakSpec PrecompileSpec.

(** ** Curves y^2 = x^3 + b over a field. *)
Record field_ops (F : Type) := mkField { f_add : F -> F -> F; f_sub : F -> F -> F; f_mul : F -> F -> F; f_inv : F -> F; f_eqb : F -> F -> bool; f_0 : F }.
Arguments f_add {F}. Arguments f_sub {F}. Arguments f_mul {F}. Arguments f_inv {F}. Arguments f_eqb {F}. Arguments f_0 {F}.
(** None: the point at infinity. *)
Definition point (F : Type) := option (F * F).
Section Curve.
  Context {F : Type}.
  Variable K : field_ops F.
  Definition cube (x : F) : F := f_mul K x (f_mul K x x).
  (** SEC 1, 2.2.1 (a = 0) *)
  Definition ec_add (P Q : point F) : point F :=
    match P, Q with
    | None, _ => Q
    | _, None => P
    | Some (x1, y1), Some (x2, y2) =>
      let third l := let x3 := f_sub K (f_sub K (f_mul K l l) x1) x2 in Some (x3, f_sub K (f_mul K l (f_sub K x1 x3)) y1) in
      if f_eqb K x1 x2 then
        if f_eqb K (f_add K y1 y2) (f_0 K) then None
        else let xx := f_mul K x1 x1 in third (f_mul K (f_add K xx (f_add K xx xx)) (f_inv K (f_add K y1 y1)))
      else third (f_mul K (f_sub K y2 y1) (f_inv K (f_sub K x2 x1)))
    end.
  (** P added to itself n times *)
  Definition ec_mul (n : N) (P : point F) : point F := N.iter n (ec_add P) None.
End Curve.

(** Integers modulo a prime p *)
Fixpoint pow_mod (p b : N) (e : positive) : N :=
  match e with
  | xH => b mod p
  | xO e => let t := pow_mod p b e in t * t mod p
  | xI e => let t := pow_mod p b e in t * t mod p * b mod p
  end.
Definition power_mod (p b e : N) : N := match e with 0 => 1 mod p | Npos e => pow_mod p b e end.
Definition Fp (p : N) : field_ops N :=
  mkField N (fun a b => (a + b) mod p) (fun a b => (a + p - b) mod p) (fun a b => a * b mod p)
    (fun a => power_mod p a (p - 2)) N.eqb 0.

(** ** secp256k1 (SEC 2, 2.4.1) *)
Definition secp_p : N := 2 ^ 256 - 2 ^ 32 - 977.
Definition secp_n : N := 0xfffffffffffffffffffffffffffffffebaaedce6af48a03bbfd25e8cd0364141.
Definition secp_G : point N := Some (0x79be667ef9dcbbac55a06295ce870b07029bfcdb2dce28d959f2815b16f81798,
                                     0x483ada7726a3c4655da4fbfc0e1108a8fd17b448a68554199c47d08ffb10d4b8).
(** The point with a given x and parity of y (SEC 1, 2.3.4); secp_p mod 4 = 3. *)
Definition secp_lift (x : N) (odd : bool) : option (N * N) :=
  let c := (x * x * x + 7) mod secp_p in
  let y := power_mod secp_p c ((secp_p + 1) / 4) in
  if (x <? secp_p) && (y * y mod secp_p =? c) then Some (x, if Bool.eqb (N.odd y) odd then y else (secp_p - y) mod secp_p) else None.
(** SEC 1, 4.1.6 for the candidate with x = r: Q = (s R - z G) / r. *)
Definition ecdsa_recover (z r s : N) (odd : bool) : option (N * N) :=
  if (1 <=? r) && (r <? secp_n) && (1 <=? s) && (s <? secp_n) then
    match secp_lift r odd with
    | None => None
    | Some R =>
      let K := Fp secp_p in
      let w := power_mod secp_n r (secp_n - 2) in
      let u1 := (secp_n - z mod secp_n) * w mod secp_n in
      let u2 := s * w mod secp_n in
      ec_add K (ec_mul K u1 secp_G) (ec_mul K u2 (Some R))
    end
  else None.
(** Yellow Paper, appendix E: ECREC; appendix F: the address of a public key. *)
Definition key_address (Q : N * N) : bytes := skipn 12 (keccak_digest 256 (be_fixed 32 (fst Q) ++ be_fixed 32 (snd Q))).
Definition ecrecover (input : bytes) : bytes :=
  let z := be_to_N (field input 0 32) in
  let v := be_to_N (field input 32 32) in
  let r := be_to_N (field input 64 32) in
  let s := be_to_N (field input 96 32) in
  if (v =? 27) || (v =? 28) then
    match ecdsa_recover z r s (v =? 28) with Some Q => zeros 12 ++ key_address Q | None => [] end
  else [].

(** ** alt_bn128 (EIP-196): y^2 = x^3 + 3 over the integers modulo [bn_p], a group of prime order [bn_r]. *)
Definition bn_p : N := 21888242871839275222246405745257275088696311157297823662689037894645226208583.
Definition bn_r : N := 21888242871839275222246405745257275088548364400416034343698204186575808495617.
Definition bn_K : field_ops N := Fp bn_p.
Definition on_g1 (x y : N) : bool := y * y mod bn_p =? (x * x * x + 3) mod bn_p.
(** Some P: the 64 bytes encode P. None: they encode nothing. *)
Definition g1_of (b : bytes) : option (point N) :=
  let x := be_to_N (firstn 32 b) in
  let y := be_to_N (skipn 32 b) in
  if (x <? bn_p) && (y <? bn_p) then
    if (x =? 0) && (y =? 0) then Some None else if on_g1 x y then Some (Some (x, y)) else None
  else None.
Definition of_g1 (P : point N) : bytes :=
  match P with None => zeros 64 | Some (x, y) => be_fixed 32 x ++ be_fixed 32 y end.
(** EIP-196. None: the contract fails. *)
Definition bn_add (input : bytes) : option bytes :=
  match g1_of (field input 0 64), g1_of (field input 64 64) with
  | Some P, Some Q => Some (of_g1 (ec_add bn_K P Q))
  | _, _ => None
  end.
Definition bn_mul (input : bytes) : option bytes :=
  match g1_of (field input 0 64) with
  | Some P => Some (of_g1 (ec_mul bn_K (be_to_N (field input 64 32)) P))
  | None => None
  end.

(** EIP-197: the field of a + b i, i^2 = -1; the curve y^2 = x^3 + 3 / (9 + i); the subgroup of order [bn_r]. *)
Definition fp2_mul (a b : N * N) : N * N :=
  ((fst a * fst b + (bn_p - snd a * snd b mod bn_p)) mod bn_p, (fst a * snd b + snd a * fst b) mod bn_p).
Definition fp2_inv (a : N * N) : N * N :=
  let n := f_inv bn_K ((fst a * fst a + snd a * snd a) mod bn_p) in (fst a * n mod bn_p, (bn_p - snd a mod bn_p) * n mod bn_p).
Definition Fp2 : field_ops (N * N) :=
  mkField _ (fun a b => (f_add bn_K (fst a) (fst b), f_add bn_K (snd a) (snd b)))
    (fun a b => (f_sub bn_K (fst a) (fst b), f_sub bn_K (snd a) (snd b))) fp2_mul fp2_inv
    (fun a b => (fst a =? fst b) && (snd a =? snd b)) (0, 0).
(** (9 + i) (y^2 - x^3) = 3 *)
Definition on_twist (x y : N * N) : bool := f_eqb Fp2 (fp2_mul (9, 1) (f_sub Fp2 (fp2_mul y y) (cube Fp2 x))) (3, 0).
(** Is [bn_r] times the point infinity? *)
Definition of_order_r (P : point (N * N)) : bool := match ec_mul Fp2 bn_r P with None => true | Some _ => false end.
Definition g2_of (b : bytes) : option (point (N * N)) :=
  let n i := be_to_N (firstn 32 (skipn (32 * i) b)) in  (* the imaginary part comes first *)
  let x := (n 1%nat, n 0%nat) in
  let y := (n 3%nat, n 2%nat) in
  if (n 0%nat <? bn_p) && (n 1%nat <? bn_p) && (n 2%nat <? bn_p) && (n 3%nat <? bn_p) then
    if f_eqb Fp2 x (0, 0) && f_eqb Fp2 y (0, 0) then Some None
    else if on_twist x y && of_order_r (Some (x, y)) then Some (Some (x, y)) else None
  else None.
(** The pairs of points in the input, in order; None: some piece encodes no point. *)
Fixpoint pairs_of (k : nat) (input : bytes) : option (list (point N * point (N * N))) :=
  match k with
  | O => Some []
  | S k =>
    match g1_of (firstn 64 input), g2_of (firstn 128 (skipn 64 input)), pairs_of k (skipn 192 input) with
    | Some P, Some Q, Some l => Some ((P, Q) :: l)
    | _, _, _ => None
    end
  end.
(** Is the product of the pairings [e] of the pairs one? *)
Definition bn_pairing {GT : Type} (e : point N -> point (N * N) -> GT) (mul : GT -> GT -> GT) (one : GT) (eqb : GT -> GT -> bool) (input : bytes) : option bytes :=
  if (length input mod 192 =? 0)%nat then
    match pairs_of (length input / 192) input with
    | Some l => Some (be_fixed 32 (if eqb (fold_left (fun acc pq => mul acc (e (fst pq) (snd pq))) l one) one then 1 else 0))
    | None => None
    end
  else None.
