(** Instances of the libraries, the sender of a transaction, the table of contracts, concrete cases. *)
From Verif Require Import Base BaseFacts RlpSpec RlpModel EcdsaModel TxModel TxSpec TxProofs4 KeccakSpec KeccakModel KeccakCases UtilModel PrecompileModel PrecompileSpec PrecompileProofs
  Sha256Spec Sha256Model RipemdModel RipemdSpec Blake2Model Blake2Spec Blake2Proofs HashLemmas CurveSpec CurveModel CurveLibs CurveProofs FarmModel.

(** ** The sender *)
Lemma sender_ok L t : secp_ok L -> wf_tx t -> small_signing t ->
  recover_sender (keccak_digest 256) (recover L) t
  = option_map key_address (ecdsa_recover (be_to_N (keccak_digest 256 (envelope t (spec_signing_item t)))) (tx_r t) (tx_s t) (tx_odd_y_parity t)).
Proof.
  intros HL W S. unfold recover_sender. rewrite (signing_encoding t W S). set (h := keccak_digest 256 (envelope t (spec_signing_item t))).
  assert (Hh : length h = 32%nat) by apply digest_length. assert (Wh : wf_bytes h) by apply digest_wf. clearbody h.
  set (sig := be_fixed 32 (tx_r t) ++ be_fixed 32 (tx_s t)).
  assert (Hs : length sig = 64%nat) by (unfold sig; now rewrite app_length, !be_fixed_length).
  assert (Ws : wf_bytes sig) by (apply wf_app; split; apply be_fixed_wf).
  unfold recover. replace (blen h =? 32) with true by (unfold blen; now rewrite Hh). replace (blen sig =? 64) with true by (unfold blen; now rewrite Hs). cbn [negb orb].
  pose proof (HL h sig (tx_odd_y_parity t) Wh Ws Hh Hs) as E.
  assert (E1 : be_to_N (firstn 32 sig) = tx_r t /\ be_to_N (skipn 32 sig) = tx_s t).
  { destruct W as (_ & _ & _ & _ & _ & _ & _ & _ & Wr & Wss & _). unfold sig. split.
    - rewrite firstn_app_exact by (now rewrite be_fixed_length). apply be_to_N_be_fixed_small. exact Wr.
    - rewrite skipn_app_exact by (now rewrite be_fixed_length). apply be_to_N_be_fixed_small. exact Wss. }
  rewrite (proj1 E1), (proj2 E1) in E. set (o := ecdsa_recover _ _ _ _) in *. clearbody o sig.
  destruct (secp_parse L sig _) as [g|]; [|destruct o; [discriminate E|reflexivity]].
  destruct (secp_recover L g h) as [k|]; cbn [option_map] in E; [|destruct o; [discriminate E|reflexivity]].
  destruct o as [Q|]; [|discriminate E]. cbn [option_map] in *. injection E as ->. reflexivity.
Qed.
Lemma recover_none z r s odd : r = 0 \/ secp_n <= r \/ s = 0 \/ secp_n <= s -> ecdsa_recover z r s odd = None.
Proof.
  intros H. unfold ecdsa_recover. destruct (N.leb_spec 1 r), (N.ltb_spec r secp_n), (N.leb_spec 1 s), (N.ltb_spec s secp_n); cbn [andb]; try reflexivity. lia.
Qed.

(** ** Encoded points are decoded *)
Lemma g1_roundtrip P : valid_g1 P -> g1_of (of_g1 P) = Some P.
Proof.
  destruct P as [[x y]|]; [|intros _; vm_compute; reflexivity]. intros (Hx & Hy & C). unfold g1_of, of_g1.
  rewrite firstn_app_exact, skipn_app_exact by (now rewrite be_fixed_length).
  assert (B : bn_p < 256 ^ N.of_nat 32) by reflexivity.
  rewrite !be_to_N_be_fixed_small by (eapply N.lt_trans; [eassumption|exact B]).
  apply N.ltb_lt in Hx, Hy. rewrite Hx, Hy, C. cbn [andb].
  destruct (N.eqb_spec x 0) as [->|]; [|reflexivity]. destruct (N.eqb_spec y 0) as [->|]; [|reflexivity]. vm_compute in C. discriminate C.
Qed.

(** ** Libraries that satisfy the assumptions *)
Definition plain_secp : secp_lib :=
  mkSecp (bytes * bool) (N * N) (fun b odd => Some (b, odd))
    (fun sig m => ecdsa_recover (be_to_N m) (be_to_N (firstn 32 (fst sig))) (be_to_N (skipn 32 (fst sig))) (snd sig))
    (fun Q => 4 :: be_fixed 32 (fst Q) ++ be_fixed 32 (snd Q)).
Lemma plain_secp_ok : secp_ok plain_secp.
Proof. intros m sig odd _ _ _ _. reflexivity. Qed.

Lemma pair_dec (a b : point N * point (N * N)) : {a = b} + {a <> b}.
Proof. repeat decide equality. Defined.
(** Pairings are formal products of pairs of points. *)
Definition formal_pairing (P : point N) (Q : point (N * N)) : list (point N * point (N * N)) :=
  if is_infinity P || is_infinity Q then [] else [(P, Q)].
Definition plain_libff : libff :=
  mkLibff bn_p bn_r (point N) None (fun x y => Some (x, y)) is_infinity (fun P => match P with None => true | Some (x, y) => on_g1 x y end)
    (ec_add bn_K) (ec_mul bn_K) (fun P => match P with None => (0, 0) | Some xy => xy end)
    (point (N * N)) None (fun x y => Some (x, y)) is_infinity (fun P => match P with None => true | Some (x, y) => on_twist x y end) (ec_mul Fp2)
    (list (point N * point (N * N))) [] (@app _) (fun a b => if list_eq_dec pair_dec a b then true else false) formal_pairing (fun x => x).
Lemma plain_libff_ok : libff_ok plain_libff (fun P => P) (fun P => P) formal_pairing.
Proof.
  constructor; try reflexivity.
  - intros P xy ->. reflexivity.
  - intros a. apply app_nil_r.
  - intros P. unfold formal_pairing. now rewrite orb_true_r.
Qed.

(** ** The table *)
(** precompiled.hpp:71-75: kContracts[num - 1].run. The outer option is undefined behaviour. Of sha-256.c it is assumed that its
    array keeps its contents (C74). *)
Definition precompile_run (S : secp_lib) (L : libff) (num : N) (input : bytes) : option (option bytes) :=
  match num with
  | 1 => ecrec_run S input
  | 2 => sha256_run true input
  | 3 => rip160_run input
  | 4 => Some (id_run input)
  | 5 => option_map Some (expmod_run input)
  | 6 => bn_add_run L input
  | 7 => bn_mul_run L input
  | 8 => Some (snarkv_run L input)
  | 9 => blake2_f_run input
  | _ => None
  end.
Lemma table_ok S L pt1 pt2 e num input : secp_ok S -> libff_ok L pt1 pt2 e -> wf_bytes input -> 1 <= num <= 9 ->
  (num = 3 -> blen input < 2 ^ 32) ->
  (num = 5 -> be_to_N (field input 64 32) = 0 \/ be_to_N (field input 0 32) + be_to_N (field input 32 32) + be_to_N (field input 64 32) < 2 ^ 64) ->
  precompile_run S L num input = Some (nth (N.to_nat num)
    [ None; Some (ecrecover input); Some (sha256 input); Some (zeros 12 ++ ripemd160 input); Some input; Some (modexp input);
      bn_add input; bn_mul input; bn_pairing e (ff_mul L) (ff_one L) (ff_eqb L) input; blake2_F input ] None).
Proof.
  intros HS HL W Hn H3 H5.
  assert (C : num = 1 \/ num = 2 \/ num = 3 \/ num = 4 \/ num = 5 \/ num = 6 \/ num = 7 \/ num = 8 \/ num = 9) by lia.
  destruct C as [C|[C|[C|[C|[C|[C|[C|[C|C]]]]]]]]; subst num; cbn [precompile_run].
  - exact (ecrec_ok S input HS W).
  - exact (sha256_run_ok input W).
  - exact (rip160_run_ok input W (H3 eq_refl)).
  - reflexivity.
  - rewrite (modexp_ok input W (H5 eq_refl)). reflexivity.
  - exact (bn_add_ok L pt1 pt2 e HL input).
  - exact (bn_mul_ok L pt1 pt2 e HL input W).
  - f_equal. exact (snarkv_ok L pt1 pt2 e HL input).
  - exact (blake2_ok input W).
Qed.
