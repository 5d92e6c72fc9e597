(** Accounts, logs, receipts, blooms: C03, C08, C09, C10, C11, C59. *)
From Verif Require Import Base BaseFacts RlpSpec RlpModel TxModel TypesModel TypesSpec TypesProofs TypesLemmas CodecCases.

(** *** C09: account storage codec *)
Theorem C09_account_roundtrip : forall a, wf_account a -> decode_account (encode_for_storage a false) = Ok a.
Proof. exact (fun a W => decode_encode_account a false W). Qed.
Print Assumptions C09_account_roundtrip.

Theorem C09_account_roundtrip_omitting_code_hash : forall a, wf_account a ->
  decode_account (encode_for_storage a true) = Ok (without_code_hash a).
Proof. exact (fun a W => decode_encode_account a true W). Qed.
Print Assumptions C09_account_roundtrip_omitting_code_hash.

Theorem C09_encoding_length : forall a, wf_account a -> encoding_length_for_storage a = blen (encode_for_storage a false).
Proof. exact encoding_length_exact. Qed.
Print Assumptions C09_encoding_length.

Theorem C09_extract_incarnation_of_encoding : forall a omit, wf_account a ->
  extract_incarnation (encode_for_storage a omit) = Ok (a_incarnation a).
Proof. exact extract_incarnation_encode. Qed.
Print Assumptions C09_extract_incarnation_of_encoding.

(** ... and on every record the full decoder accepts, not only on those written by the encoder. *)
Theorem C09_extract_incarnation_agrees : forall e a, e <> [] -> decode_account e = Ok a -> extract_incarnation e = Ok (a_incarnation a).
Proof. exact extract_agrees'. Qed.
Print Assumptions C09_extract_incarnation_agrees.

Example C09_witness : wf_account sample_account /\
  firstn 14 (encode_for_storage sample_account false) = [15; 1; 5; 8; 13; 224; 182; 179; 167; 100; 0; 0; 1; 2].
Proof. exact (conj sample_account_ok eq_refl). Qed.

(** *** C08 for stored accounts: safe on well-framed records (in particular on everything the encoder writes),
    undefined on others. *)
Theorem C08_account_decoder_safe_partial : forall fs from, framed (announced fs) from -> decode_account (fs :: from) <> UB.
Proof. exact decode_account_framed. Qed.
Print Assumptions C08_account_decoder_safe_partial.

Theorem C08_account_encodings_framed : forall a omit, wf_account a ->
  match encode_for_storage a omit with [] => False | fs :: from => framed (announced fs) from end.
Proof. exact encode_account_framed. Qed.
Print Assumptions C08_account_encodings_framed.
Example C08_account_witness : framed (announced 15) (skipn 1 (encode_for_storage sample_account false)) /\ framed (announced 3) [1; 5; 9; 1; 2]
  /\ decode_account [1; 1; 5; 99] = Ok (mkAccount 5 0 kEmptyHash 0).
Proof. exact C08_account_case_lemma. Qed.

Theorem C08_account_decoder_refuted : decode_account [1] = UB /\ decode_account (2 :: 33 :: zeros 33) = UB.
Proof. exact (conj eq_refl eq_refl). Qed.
Print Assumptions C08_account_decoder_refuted.

(** *** C10: the trie encoding of an account is the specified RLP and commits to every field. *)
Theorem C10_account_rlp : forall a root, wf_account a -> hash32 root -> account_rlp a root = RLP (account_item a root).
Proof. exact account_rlp_spec. Qed.
Print Assumptions C10_account_rlp.

Theorem C10_account_rlp_injective : forall a b ra rb, wf_account a -> wf_account b -> hash32 ra -> hash32 rb ->
  account_rlp a ra = account_rlp b rb <->
  a_nonce a = a_nonce b /\ a_balance a = a_balance b /\ ra = rb /\ a_code_hash a = a_code_hash b.
Proof. exact account_rlp_inj'. Qed.
Print Assumptions C10_account_rlp_injective.
Example C10_witness : wf_account sample_account /\ hash32 (be_fixed 32 5) /\ hash32 (be_fixed 32 6) /\ account_rlp sample_account (be_fixed 32 5) <> account_rlp sample_account (be_fixed 32 6).
Proof. exact C10_case_lemma. Qed.

(** *** C11: bloom filters, for every hash function *)
Theorem C11_bloom_exact : forall keccak logs b,
  bloom_has (logs_bloom keccak logs) b <-> exists x, log_entries logs x /\ entry_bit keccak x b.
Proof. exact logs_bloom_exact. Qed.
Print Assumptions C11_bloom_exact.

Theorem C11_bloom_size : forall keccak logs, blen (logs_bloom keccak logs) = 256 /\ wf_bytes (logs_bloom keccak logs).
Proof. exact logs_bloom_size. Qed.
Print Assumptions C11_bloom_size.

Theorem C11_join_concatenates : forall keccak l1 l2,
  join_bloom (logs_bloom keccak l1) (logs_bloom keccak l2) = logs_bloom keccak (l1 ++ l2).
Proof. exact join_logs_bloom. Qed.
Print Assumptions C11_join_concatenates.

Example C11_witness : let keccak x := x ++ zeros 32 in
  bloom_has (logs_bloom keccak [mkLog (be_fixed 20 (2 ^ 152)) [] []]) 256 /\
  ~ bloom_has (logs_bloom keccak [mkLog (be_fixed 20 (2 ^ 152)) [] []]) 257.
Proof. split; [vm_compute; reflexivity|vm_compute; discriminate]. Qed.

(** *** C03, C59: logs and receipts *)
Theorem C03_log_length : forall l, wf_log l -> blen (RLP (log_item l)) < 2 ^ 64 -> length_log l = blen (encode_log l).
Proof. exact length_log_exact. Qed.
Print Assumptions C03_log_length.

Theorem C59_log_encoding : forall l, wf_log l -> blen (RLP (log_item l)) < 2 ^ 64 -> encode_log l = RLP (log_item l).
Proof. exact encode_log_spec. Qed.
Print Assumptions C59_log_encoding.

Theorem C59_receipt_encoding : forall r, wf_receipt r -> blen (RLP (receipt_item r)) < 2 ^ 64 -> encode_receipt r = receipt_envelope r.
Proof. exact encode_receipt_spec. Qed.
Print Assumptions C59_receipt_encoding.

Theorem C59_log_injective : forall a b, wf_log a -> wf_log b -> blen (RLP (log_item a)) < 2 ^ 64 -> blen (RLP (log_item b)) < 2 ^ 64 ->
  encode_log a = encode_log b -> a = b.
Proof. exact encode_log_inj. Qed.
Print Assumptions C59_log_injective.

Theorem C59_receipt_injective : forall a b, wf_receipt a -> wf_receipt b ->
  blen (RLP (receipt_item a)) < 2 ^ 64 -> blen (RLP (receipt_item b)) < 2 ^ 64 ->
  encode_receipt a = encode_receipt b -> a = b.
Proof. exact encode_receipt_inj. Qed.
Print Assumptions C59_receipt_injective.
Example C59_receipt_witness : wf_receipt sample_receipt /\ blen (RLP (receipt_item sample_receipt)) < 2 ^ 64 /\ rc_logs sample_receipt = [sample_log; sample_log].
Proof. exact (conj (proj1 sample_receipt_ok) (conj (proj2 sample_receipt_ok) eq_refl)). Qed.

Example C59_log_witness : wf_log sample_log /\ blen (RLP (log_item sample_log)) < 2 ^ 64.
Proof. exact sample_log_ok. Qed.
