(** What is assumed of libsecp256k1 and libff: they implement the mathematics of CurveSpec. *)
From Verif Require Import Base CurveSpec CurveModel.

(** The three calls together recover the key, and serialise it as 4, x, y (SEC 1, 2.3.3). *)
Definition secp_ok (L : secp_lib) : Prop :=
  forall message signature odd, wf_bytes message -> wf_bytes signature -> length message = 32%nat -> length signature = 64%nat ->
    match secp_parse L signature odd with
    | None => None
    | Some sig => option_map (secp_serialize L) (secp_recover L sig message)
    end
    = option_map (fun Q => 4 :: be_fixed 32 (fst Q) ++ be_fixed 32 (snd Q))
        (ecdsa_recover (be_to_N message) (be_to_N (firstn 32 signature)) (be_to_N (skipn 32 signature)) odd).

Definition is_infinity {F} (P : point F) : bool := match P with None => true | Some _ => false end.
Definition valid_g1 (P : point N) : Prop := match P with None => True | Some (x, y) => x < bn_p /\ y < bn_p /\ on_g1 x y = true end.
Definition valid_fp2 (x : N * N) : Prop := fst x < bn_p /\ snd x < bn_p.
Definition valid_g2 (P : point (N * N)) : Prop :=
  match P with None => True | Some (x, y) => valid_fp2 x /\ valid_fp2 y /\ on_twist x y = true end.

(** [pt1] and [pt2] give the points that values of the library stand for (in projective coordinates), [e] the pairing. *)
Record libff_ok (L : libff) (pt1 : ff_G1 L -> point N) (pt2 : ff_G2 L -> point (N * N)) (e : point N -> point (N * N) -> ff_GT L) : Prop := {
  ff_q_ok : ff_q L = bn_p;
  ff_r_ok : ff_r L = bn_r;
  g1_zero_ok : pt1 (ff_G1_zero L) = None;
  g1_make_ok x y : valid_g1 (Some (x, y)) -> pt1 (ff_G1_make L x y) = Some (x, y);
  g1_well_formed_ok x y : x < bn_p -> y < bn_p -> ff_G1_is_well_formed L (ff_G1_make L x y) = on_g1 x y;
  g1_is_zero_ok P : ff_G1_is_zero L P = is_infinity (pt1 P);
  g1_affine_ok P xy : pt1 P = Some xy -> ff_G1_to_affine L P = xy;
  g1_add_ok P Q : valid_g1 (pt1 P) -> valid_g1 (pt1 Q) -> pt1 (ff_G1_add L P Q) = ec_add bn_K (pt1 P) (pt1 Q);
  g1_mul_ok n P : n < 2 ^ 256 -> valid_g1 (pt1 P) -> pt1 (ff_G1_mul L n P) = ec_mul bn_K n (pt1 P);
  g2_zero_ok : pt2 (ff_G2_zero L) = None;
  g2_make_ok x y : valid_g2 (Some (x, y)) -> pt2 (ff_G2_make L x y) = Some (x, y);
  g2_well_formed_ok x y : valid_fp2 x -> valid_fp2 y -> ff_G2_is_well_formed L (ff_G2_make L x y) = on_twist x y;
  g2_is_zero_ok P : ff_G2_is_zero L P = is_infinity (pt2 P);
  g2_mul_ok n P : n < 2 ^ 256 -> valid_g2 (pt2 P) -> pt2 (ff_G2_mul L n P) = ec_mul Fp2 n (pt2 P);
  gt_one_ok a : ff_mul L a (ff_one L) = a;
  pairing_left_ok Q : e None Q = ff_one L;
  pairing_right_ok P : e P None = ff_one L;
  final_one_ok : ff_final_exponentiation L (ff_one L) = ff_one L;
  final_miller_ok acc P Q : valid_g1 (pt1 P) -> valid_g2 (pt2 Q) -> pt1 P <> None -> pt2 Q <> None ->
    ff_final_exponentiation L (ff_mul L acc (ff_miller_loop L P Q)) = ff_mul L (ff_final_exponentiation L acc) (e (pt1 P) (pt2 Q))
}.
