(** Preimages of contract addresses (execution/address.cpp). *)
From Verif Require Import Base BaseFacts RlpSpec RlpModel RlpProofs EvmModel.

Lemma rlp_be20 c : rlp_str (be_fixed 20 c) = 0x94 :: be_fixed 20 c.
Proof.
  pose proof (be_fixed_length 20 c) as L. rewrite rlp_str_alt. unfold blen. rewrite L. unfold needs_header.
  destruct (be_fixed 20 c) as [|x [|y t]]; [discriminate L|discriminate L|reflexivity].
Qed.
Lemma rlp_BE64_len n : n < 2 ^ 64 -> blen (rlp_str (BE n)) <= 9.
Proof.
  intros Hn. rewrite rlp_str_BE by (eapply N.lt_trans; [exact Hn|reflexivity]). pose proof (byte_len_u64 n Hn).
  destruct (n =? 0); [discriminate|]. destruct (n <? 0x80); [discriminate|]. rewrite blen_cons, BE_blen. lia.
Qed.
Lemma create_form c n : n < 2 ^ 64 -> create_preimage c n = (0xC0 + 21 + blen (rlp_str (BE n))) :: 0x94 :: be_fixed 20 c ++ rlp_str (BE n).
Proof.
  intros Hn. pose proof (rlp_BE64_len n Hn). unfold create_preimage. rewrite length_u64_spec by exact Hn. rewrite encode_bytes_spec by (unfold blen; rewrite be_fixed_length; reflexivity).
  rewrite rlp_be20, encode_u64_spec by exact Hn. rewrite encode_header_hdr by (cbn [h_payload_length]; lia). unfold hdr_of. cbn [h_list h_payload_length]. unfold hdr.
  destruct (N.ltb_spec (1 + 20 + blen (rlp_str (BE n))) 56); [|lia]. cbn [app]. f_equal. lia.
Qed.
Theorem create_preimage_rlp c n : n < 2 ^ 64 -> create_preimage c n = RLP (Lst [Str (be_fixed 20 c); Num n]).
Proof.
  intros Hn. rewrite create_form by exact Hn. pose proof (rlp_BE64_len n Hn). cbn [RLP map concat Num]. unfold Num. cbn [RLP]. rewrite app_nil_r, rlp_be20. unfold rlp_lst, hdr.
  assert (L : blen ((0x94 :: be_fixed 20 c) ++ rlp_str (BE n)) = 21 + blen (rlp_str (BE n))).
  { rewrite blen_app, blen_cons. unfold blen at 1. rewrite be_fixed_length. lia. }
  rewrite L. destruct (N.ltb_spec (21 + blen (rlp_str (BE n))) 56); [|lia]. cbn [app]. f_equal. lia.
Qed.
Lemma rlp_BE_inj a b : a < 2 ^ 64 -> b < 2 ^ 64 -> rlp_str (BE a) = rlp_str (BE b) -> a = b.
Proof.
  intros Ha Hb E. apply BE_inj. pose proof (byte_len_u64 a Ha) as La. pose proof (byte_len_u64 b Hb) as Lb.
  assert (S : forall x, byte_len x <= 8 -> blen (BE x) < 2 ^ 64) by (intros x Hx; rewrite BE_blen; eapply N.le_lt_trans; [exact Hx|reflexivity]).
  pose proof (decode_bytes_rt (BE a) [] (S _ La)) as D. rewrite E, (decode_bytes_rt (BE b) [] (S _ Lb)) in D. now injection D.
Qed.
Theorem create_preimage_inj c n c' n' : c < 2 ^ 160 -> c' < 2 ^ 160 -> n < 2 ^ 64 -> n' < 2 ^ 64 ->
  create_preimage c n = create_preimage c' n' -> c = c' /\ n = n'.
Proof.
  intros Hc Hc' Hn Hn' E. rewrite !create_form in E by assumption. apply (f_equal (skipn 2)) in E. change (be_fixed 20 c ++ rlp_str (BE n) = be_fixed 20 c' ++ rlp_str (BE n')) in E.
  apply app_eq_length in E; [|now rewrite !be_fixed_length]. destruct E as (E1 & E2). split; [|now apply rlp_BE_inj].
  eapply be_fixed_inj; [| |exact E1]; assumption.
Qed.
Theorem create2_preimage_inj c s h c' s' h' : c < 2 ^ 160 -> c' < 2 ^ 160 -> s < 2 ^ 256 -> s' < 2 ^ 256 -> blen h = 32 -> blen h' = 32 ->
  create2_preimage c s h = create2_preimage c' s' h' -> c = c' /\ s = s' /\ h = h'.
Proof.
  intros Hc Hc' Hs Hs' Hh Hh' E. unfold create2_preimage in E. apply (f_equal (skipn 1)) in E. change (be_fixed 20 c ++ be_fixed 32 s ++ firstn 32 h = be_fixed 20 c' ++ be_fixed 32 s' ++ firstn 32 h') in E.
  apply app_eq_length in E; [|now rewrite !be_fixed_length]. destruct E as (E1 & E).
  apply app_eq_length in E; [|now rewrite !be_fixed_length]. destruct E as (E2 & E3).
  unfold blen in *. rewrite !firstn_all2 in E3 by lia.
  split; [eapply be_fixed_inj; [| |exact E1]; assumption|]. split; [eapply be_fixed_inj; [| |exact E2]; assumption|exact E3].
Qed.
Theorem create2_preimage_form c s h : blen h = 32 -> create2_preimage c s h = 0xff :: be_fixed 20 c ++ be_fixed 32 s ++ h /\ blen (create2_preimage c s h) = 85.
Proof.
  intros Hh. unfold create2_preimage. assert (E : firstn 32 h = h) by (apply firstn_all2; unfold blen in Hh; lia). rewrite E. split; [reflexivity|].
  rewrite !blen_app, Hh. unfold blen. rewrite !be_fixed_length. reflexivity.
Qed.
Theorem preimages_disjoint c n c' s h : n < 2 ^ 64 -> create_preimage c n <> create2_preimage c' s h.
Proof. intros Hn E. rewrite create_form in E by exact Hn. pose proof (rlp_BE64_len n Hn). unfold create2_preimage in E. apply (f_equal (hd 0)) in E. change (0xC0 + 21 + blen (rlp_str (BE n)) = 0xff) in E. lia. Qed.
Theorem address_last20 (keccak : bytes -> bytes) c n s h : blen (keccak (create_preimage c n)) = 32 -> blen (keccak (create2_preimage c s h)) = 32 ->
  create_address keccak c n = be_to_N (skipn 12 (keccak (create_preimage c n)))
  /\ create2_address keccak c s h = be_to_N (skipn 12 (keccak (create2_preimage c s h))).
Proof.
  intros H1 H2. unfold create_address, create2_address. unfold blen in *. split; f_equal; apply firstn_all2; rewrite skipn_length; lia.
Qed.
