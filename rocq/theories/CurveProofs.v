From Verif Require Import Base BaseFacts EcdsaModel KeccakModel KeccakSpec KeccakCases UtilModel UtilSpec UtilProofs PrecompileSpec PrecompileProofs
  CurveSpec CurveModel CurveLibs.
Lemma flag_ok (b : bool) : zeros 31 ++ [if b then 1 else 0] = be_fixed 32 (if b then 1 else 0).
Proof. now destruct b. Qed.
Local Opaque be_fixed be_to_N ec_mul ec_add bn_p bn_r secp_n secp_p N.pow ecdsa_recover on_g1 on_twist.

Lemma be32 b : wf_bytes b -> length b = 32%nat -> be_to_N b < 2 ^ 256.
Proof. intros W H. pose proof (be_to_N_bound b W) as B. unfold blen in B. rewrite H in B. exact B. Qed.
Lemma read_field input k pos n : (pos + n <= length input + k)%nat -> firstn n (skipn pos (input ++ zeros k)) = field input (N.of_nat pos) (N.of_nat n).
Proof. intros H. rewrite <- (field_padded input k) by lia. now rewrite !Nat2N.id. Qed.
Lemma first_field input pos n m : n <= m -> firstn (N.to_nat n) (field input pos m) = field input pos n.
Proof.
  intros L. unfold field. rewrite firstn_firstn, Nat.min_l by lia. rewrite !firstn_app. f_equal. unfold zeros.
  set (l := skipn (N.to_nat pos) input). assert (E : forall a b, (a <= b)%nat -> firstn a (repeat 0 b) = repeat 0 a).
  { induction a as [|a IH]; intros [|b] H; try reflexivity; [lia|]. cbn. f_equal. apply IH. lia. }
  destruct (Nat.le_gt_cases (N.to_nat n) (length l)) as [G|G].
  - replace (N.to_nat n - length l)%nat with 0%nat by lia. reflexivity.
  - rewrite !E by lia. reflexivity.
Qed.
Lemma skip_field input pos n m : n <= m -> skipn (N.to_nat n) (field input pos m) = field input (pos + n) (m - n).
Proof.
  intros L. unfold field. rewrite N2Nat.inj_add, Nat.add_comm, <- skipn_skipn. set (l := skipn (N.to_nat pos) input).
  rewrite skipn_firstn_comm, N2Nat.inj_sub, skipn_app, skipn_zeros, !firstn_app. f_equal. rewrite !firstn_zeros, skipn_length. f_equal. lia.
Qed.

(** ** ecrecover *)
Lemma small_r r : (1 <=? r) = negb (r =? 0).
Proof. destruct (N.leb_spec 1 r), (N.eqb_spec r 0); try reflexivity; lia. Qed.
Lemma recover_range z r s odd : is_valid_signature r s false = false -> ecdsa_recover z r s odd = None.
Proof.
  intros H. Transparent ecdsa_recover. unfold ecdsa_recover. Opaque ecdsa_recover. rewrite !small_r. unfold is_valid_signature in H. cbn [andb] in H.
  destruct (r =? 0); [reflexivity|]. destruct (s =? 0); [now rewrite andb_false_r|]. cbn [orb negb andb] in *.
  change kSecp256k1n with secp_n in H.
  destruct (N.leb_spec secp_n r); [|discriminate H].
  destruct (N.ltb_spec r secp_n); [lia|reflexivity].
Qed.
Lemma ecrec_ok L input : secp_ok L -> wf_bytes input -> ecrec_run L input = Some (Some (ecrecover input)).
Proof.
  intros HL W. unfold ecrec_run.
  assert (D : exists k, (128 <= length input + k)%nat /\ (if blen input <? 128 then input ++ zeros (128 - length input) else input) = input ++ zeros k).
  { unfold blen. destruct (N.ltb_spec (N.of_nat (length input)) 128) as [H|H].
    - exists (128 - length input)%nat. split; [lia|reflexivity].
    - exists 0%nat. split; [lia|]. cbn. now rewrite app_nil_r. }
  destruct D as (k & Hk & ->).
  change (firstn 32 (input ++ zeros k)) with (firstn 32 (skipn 0 (input ++ zeros k))).
  rewrite !read_field by lia.
  change (N.of_nat 32) with 32. change (N.of_nat 64) with 64. change (N.of_nat 96) with 96. change (N.of_nat 0) with 0.
  unfold ecrecover. set (z := field input 0 32). set (v := be_to_N (field input 32 32)). set (r := be_to_N (field input 64 32)). set (s := be_to_N (field input 96 32)).
  destruct (is_valid_signature r s false) eqn:V; cbn [negb].
  2:{ rewrite (recover_range _ _ _ _ V). now destruct (_ || _). }
  unfold v_to_y_parity_and_chain_id. destruct ((v =? 27) || (v =? 28)); [|reflexivity].
  unfold recover. assert (Lz : length z = 32%nat) by apply field_length. assert (Ls : length (field input 64 64) = 64%nat) by apply field_length.
  replace (blen z =? 32) with true by (unfold blen; now rewrite Lz). replace (blen (field input 64 64) =? 64) with true by (unfold blen; now rewrite Ls).
  cbn [negb orb].
  specialize (HL z (field input 64 64) (v =? 28) (field_wf _ _ _ W) (field_wf _ _ _ W) Lz Ls).
  change 32%nat with (N.to_nat 32) in HL. rewrite (first_field input 64 32 64) in HL by lia. rewrite skip_field in HL by lia. change (64 + 32) with 96 in HL. change (64 - 32) with 32 in HL.
  fold r s in HL.
  assert (E : match secp_parse L (field input 64 64) (v =? 28) with None => None | Some sig => match secp_recover L sig z with None => None | Some key => Some (secp_serialize L key) end end
    = option_map (fun Q => 4 :: be_fixed 32 (fst Q) ++ be_fixed 32 (snd Q)) (ecdsa_recover (be_to_N z) r s (v =? 28))).
  { etransitivity; [|exact HL]. destruct (secp_parse L _ _) as [sig|]; [|reflexivity]. destruct (secp_recover L sig z); reflexivity. }
  rewrite E. clear E HL. destruct (ecdsa_recover (be_to_N z) r s (v =? 28)) as [Q|]; cbn [option_map]; [|reflexivity].
  change (4 =? 4) with true. cbn [negb]. rewrite keccak256_ok by (apply wf_app; split; apply be_fixed_wf).
  unfold key_address. set (d := keccak_digest 256 _). assert (Ed : length d = 32%nat) by apply digest_length. clearbody d. rewrite firstn_all2; [reflexivity|]. rewrite skipn_length, Ed. lia.
Qed.

(** ** alt_bn128 *)
Section Snark.
  Variables (L : libff) (pt1 : ff_G1 L -> point N) (pt2 : ff_G2 L -> point (N * N)) (e : point N -> point (N * N) -> ff_GT L).
  Hypothesis HL : libff_ok L pt1 pt2 e.

  Lemma decode_g1_ok b : length b = 64%nat ->
    match decode_g1_element L b with
    | None => g1_of b = None
    | Some P => valid_g1 (pt1 P) /\ g1_of b = Some (pt1 P)
    end.
  Proof.
    intros Hb. unfold decode_g1_element, g1_of, to_scalar, valid_element_of_fp. rewrite (ff_q_ok _ _ _ _ HL).
    replace (firstn 32 (skipn 32 b)) with (skipn 32 b) by (symmetry; apply firstn_all2; rewrite skipn_length; lia).
    set (x := be_to_N (firstn 32 b)). set (y := be_to_N (skipn 32 b)). clearbody x y.
    destruct (N.ltb_spec x bn_p) as [Hx|Hx]; [|reflexivity]. cbn [negb andb].
    destruct (N.ltb_spec y bn_p) as [Hy|Hy]; [|reflexivity]. cbn [negb].
    destruct ((x =? 0) && (y =? 0)). { rewrite (g1_zero_ok _ _ _ _ HL). split; [exact I|reflexivity]. }
    rewrite (g1_well_formed_ok _ _ _ _ HL) by assumption. destruct (on_g1 x y) eqn:C; [|reflexivity]. cbn [negb].
    assert (Va : valid_g1 (Some (x, y))) by (split; [exact Hx|split; [exact Hy|exact C]]).
    rewrite (g1_make_ok _ _ _ _ HL) by exact Va. split; [exact Va|reflexivity].
  Qed.
  Lemma encode_g1_ok P : encode_g1_element L P = of_g1 (pt1 P).
  Proof.
    unfold encode_g1_element, of_g1. rewrite (g1_is_zero_ok _ _ _ _ HL). destruct (pt1 P) as [[x y]|] eqn:E; cbn [is_infinity]; [|reflexivity].
    rewrite (g1_affine_ok _ _ _ _ HL P (x, y) E). unfold limbs. rewrite rev_app_distr, !rev_involutive. reflexivity.
  Qed.
  Lemma bn_add_ok input : bn_add_run L input = Some (bn_add input).
  Proof.
    unfold bn_add_run, bn_add. destruct (right_pad_spec (Outside input) 128 [] I) as (b & ->). cbn [view_of].
    change (firstn 64 (input ++ ?z)) with (firstn 64 (skipn 0 (input ++ z))).
    rewrite !read_field by lia. change (N.of_nat 0) with 0. change (N.of_nat 64) with 64.
    pose proof (decode_g1_ok (field input 0 64) (field_length _ _ _)) as D1. pose proof (decode_g1_ok (field input 64 64) (field_length _ _ _)) as D2.
    destruct (decode_g1_element L (field input 0 64)) as [P|]; [|now rewrite D1]. destruct D1 as (V1 & ->).
    destruct (decode_g1_element L (field input 64 64)) as [Q|]; [|now rewrite D2]. destruct D2 as (V2 & ->).
    rewrite encode_g1_ok, (g1_add_ok _ _ _ _ HL) by assumption. reflexivity.
  Qed.
  Lemma bn_mul_ok input : wf_bytes input -> bn_mul_run L input = Some (bn_mul input).
  Proof.
    intros W. unfold bn_mul_run, bn_mul. destruct (right_pad_spec (Outside input) 96 [] I) as (b & ->). cbn [view_of].
    change (firstn 64 (input ++ ?z)) with (firstn 64 (skipn 0 (input ++ z))).
    rewrite !read_field by lia. change (N.of_nat 0) with 0. change (N.of_nat 64) with 64. change (N.of_nat 32) with 32.
    pose proof (decode_g1_ok (field input 0 64) (field_length _ _ _)) as D1.
    destruct (decode_g1_element L (field input 0 64)) as [P|]; [|now rewrite D1]. destruct D1 as (V1 & ->).
    unfold to_scalar. rewrite encode_g1_ok, (g1_mul_ok _ _ _ _ HL); [reflexivity| |assumption].
    apply be32; [now apply field_wf|apply field_length].
  Qed.

  Lemma r_small : bn_r < 2 ^ 256.
  Proof. Transparent N.pow. reflexivity. Opaque N.pow. Qed.
  Lemma decode_g2_ok b : length b = 128%nat ->
    match decode_g2_element L b with
    | None => g2_of b = None
    | Some P => valid_g2 (pt2 P) /\ g2_of b = Some (pt2 P)
    end.
  Proof.
    intros Hb. unfold decode_g2_element, decode_fp2_element, g2_of, to_scalar, valid_element_of_fp. rewrite (ff_q_ok _ _ _ _ HL), (ff_r_ok _ _ _ _ HL).
    assert (E : forall i j k, (j + 32 <= k)%nat -> firstn 32 (skipn j (firstn k (skipn i b))) = firstn 32 (skipn (i + j) b)).
    { intros i j k H. rewrite skipn_firstn_comm, firstn_firstn, skipn_skipn, Nat.min_l by lia. now rewrite (Nat.add_comm j i). }
    change (firstn 32 (firstn 64 b)) with (firstn 32 (skipn 0 (firstn 64 (skipn 0 b)))).
    change (firstn 32 (firstn 64 (skipn 64 b))) with (firstn 32 (skipn 0 (firstn 64 (skipn 64 b)))).
    change (skipn 32 (firstn 64 b)) with (skipn 32 (firstn 64 (skipn 0 b))).
    rewrite !E by lia. cbn [Nat.add Nat.mul].
    set (n0 := be_to_N (firstn 32 (skipn 0 b))). set (n1 := be_to_N (firstn 32 (skipn 32 b))). set (n2 := be_to_N (firstn 32 (skipn 64 b))). set (n3 := be_to_N (firstn 32 (skipn 96 b))).
    clearbody n0 n1 n2 n3.
    destruct (N.ltb_spec n1 bn_p) as [H1|H1]; destruct (N.ltb_spec n0 bn_p) as [H0|H0]; cbn [negb orb andb]; try reflexivity.
    destruct (N.ltb_spec n3 bn_p) as [H3|H3]; destruct (N.ltb_spec n2 bn_p) as [H2|H2]; cbn [negb orb andb]; try reflexivity.
    cbn [fst snd f_eqb Fp2].
    destruct ((n1 =? 0) && (n0 =? 0) && ((n3 =? 0) && (n2 =? 0))). { rewrite (g2_zero_ok _ _ _ _ HL). split; [exact I|reflexivity]. }
    assert (Vx : valid_fp2 (n1, n0)) by (split; assumption). assert (Vy : valid_fp2 (n3, n2)) by (split; assumption).
    rewrite (g2_well_formed_ok _ _ _ _ HL) by assumption. destruct (on_twist (n1, n0) (n3, n2)) eqn:C; [|reflexivity]. cbn [negb andb].
    assert (Va : valid_g2 (Some ((n1, n0), (n3, n2)))) by (split; [exact Vx|split; [exact Vy|exact C]]).
    pose proof (g2_make_ok _ _ _ _ HL _ _ Va) as Em.
    rewrite (g2_is_zero_ok _ _ _ _ HL), (g2_mul_ok _ _ _ _ HL) by (rewrite ?Em; first [exact r_small|exact Va]). rewrite Em.
    change (of_order_r (Some (n1, n0, (n3, n2)))) with (is_infinity (ec_mul Fp2 bn_r (Some (n1, n0, (n3, n2))))).
    destruct (is_infinity _); [|reflexivity]. cbn [negb]. rewrite Em. split; [exact Va|reflexivity].
  Qed.

  Lemma loop_ok input : forall k i acc, (length input = (i + k) * 192)%nat ->
    match snarkv_loop L input k i acc with
    | None => pairs_of k (skipn (i * 192) input) = None
    | Some acc' => exists l, pairs_of k (skipn (i * 192) input) = Some l
      /\ ff_final_exponentiation L acc' = fold_left (fun a pq => ff_mul L a (e (fst pq) (snd pq))) l (ff_final_exponentiation L acc)
    end.
  Proof.
    induction k as [|k IH]; intros i acc Hl; cbn [snarkv_loop pairs_of].
    - exists []. split; reflexivity.
    - unfold kSnarkvStride.
      pose proof (decode_g1_ok (firstn 64 (skipn (i * 192) input))) as D1. rewrite firstn_length, skipn_length in D1. specialize (D1 ltac:(lia)).
      rewrite !(skipn_skipn _ (i * 192)%nat). rewrite (Nat.add_comm 64 (i * 192)). rewrite (Nat.add_comm 192 (i * 192)). replace (i * 192 + 192)%nat with (S i * 192)%nat by lia.
      pose proof (decode_g2_ok (firstn 128 (skipn (i * 192 + 64) input))) as D2. rewrite firstn_length, skipn_length in D2. specialize (D2 ltac:(lia)).
      destruct (decode_g1_element L _) as [P|]; [|now rewrite D1]. destruct D1 as (V1 & ->).
      destruct (decode_g2_element L _) as [Q|]; [|now rewrite D2]. destruct D2 as (V2 & ->).
      rewrite (g1_is_zero_ok _ _ _ _ HL), (g2_is_zero_ok _ _ _ _ HL).
      set (acc1 := if is_infinity (pt1 P) || is_infinity (pt2 Q) then acc else ff_mul L acc (ff_miller_loop L P Q)).
      assert (F : ff_final_exponentiation L acc1 = ff_mul L (ff_final_exponentiation L acc) (e (pt1 P) (pt2 Q))).
      { unfold acc1. destruct (pt1 P) as [p1|] eqn:E1; cbn [is_infinity orb].
        - destruct (pt2 Q) as [q1|] eqn:E2; cbn [is_infinity].
          + rewrite <- E1, <- E2. apply (final_miller_ok _ _ _ _ HL); rewrite ?E1, ?E2; first [assumption|discriminate].
          + rewrite (pairing_right_ok _ _ _ _ HL), (gt_one_ok _ _ _ _ HL). reflexivity.
        - rewrite (pairing_left_ok _ _ _ _ HL), (gt_one_ok _ _ _ _ HL). reflexivity. }
      specialize (IH (S i) acc1 ltac:(lia)).
      destruct (snarkv_loop L input k (S i) acc1) as [acc'|]; [|now rewrite IH].
      destruct IH as (l & -> & ->). exists ((pt1 P, pt2 Q) :: l). split; [reflexivity|]. cbn [fold_left fst snd]. now rewrite F.
  Qed.
  Lemma snarkv_ok input : snarkv_run L input = bn_pairing e (ff_mul L) (ff_one L) (ff_eqb L) input.
  Proof.
    unfold snarkv_run, bn_pairing, kSnarkvStride. destruct (Nat.eqb_spec (length input mod 192) 0) as [H|H]; [|reflexivity]. cbn [negb].
    pose proof (loop_ok input (length input / 192) 0 (ff_one L)) as G. cbn [Nat.add Nat.mul] in G. change (skipn 0 input) with input in G.
    specialize (G ltac:(pose proof (Nat.div_mod (length input) 192 ltac:(discriminate)); lia)).
    destruct (snarkv_loop L input _ 0 (ff_one L)) as [acc|]; [|now rewrite G]. destruct G as (l & -> & ->). rewrite (final_one_ok _ _ _ _ HL).
    now rewrite flag_ok.
  Qed.
End Snark.
